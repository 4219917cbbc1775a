(** C150-C152: the switch that feeds user loads. *)
From Coq Require Import Floats.
From Coq Require Import Reals Lra Lia List Arith Bool ZArith.
From Verif Require Import Num Ord Loops MathUtil Props_Math BasicLinks Trip Spec_Valve Props_Valve Props_Thermal UserLoad Props_UserLoad.
Import ListNotations.
Local Open Scope R_scope.

Lemma dec_1e15 : (ndec 1 15 : R) = 1000000000000000. Proof. rnum. unfold Rdec. cbn. lra. Qed.
Lemma climR : (BasicLinks.conductance_limit : R) = 1000000000000000. Proof. unfold BasicLinks.conductance_limit. exact dec_1e15. Qed.
Lemma dec_1e8 : (override_g : R) = 100000000. Proof. unfold override_g. rnum. unfold Rdec. cbn. lra. Qed.
Lemma eps100R : (eps100 : R) = 100 * Reps. Proof. unfold eps100. rnum. unfold Rdec. cbn. lra. Qed.
(** The resistance of the switch when closed. *)
Definition ohms_of (s : @sw R) : R := if Rlt_dec 0 (s_ares s) then s_ares s else 1 / 1000000000000000.
Lemma cond_closed (s : @sw R) : s_closed s = true -> conductance s = 1 / ohms_of s /\ 0 < ohms_of s.
Proof.
  intro C. unfold conductance, ohms_of. rewrite C. unfold Trip.conductance_limit. rewrite dec_1e15.
  change (n0 <~ s_ares s) with (Rltb 0 (s_ares s)). destruct (Rltb_spec 0 (s_ares s)), (Rlt_dec 0 (s_ares s)); try lra; (split; [|lra]); try reflexivity; field.
Qed.
Definition seen (u : uload R) : R := 1 / Rmax Reps (d_r (u_load u)).
Lemma loads_step_facts (v : R) : forall l g l' g', loads_step v l g = Some (l', g') ->
  g' = g + total (map seen l') /\ Forall2 (fun u u' => load_step v (u_load u) = Some (u_load u') /\ u' = with_uload u (u_load u')) l l'.
Proof.
  induction l as [|u l IH]; intros g l' g' H; cbn [loads_step] in H.
  - injection H as <- <-. cbn. split; [lra|constructor].
  - destruct (load_step v (u_load u)) as [d|] eqn:E; [|discriminate].
    destruct (loads_step v l (g +~ n1 /~ nmax neps (d_r d))) as [[l1 g1]|] eqn:F; [|discriminate].
    injection H as <- <-. apply IH in F as [F1 F2]. split.
    + rewrite F1. cbn [map total fold_right]. fold (total (map seen l1)). unfold seen at 2. cbn [u_load with_uload]. rewrite nmaxR.
      change (g +~ n1 /~ Rmax neps (d_r d)) with (g + 1 / Rmax Reps (d_r d)). lra.
    + constructor; [|exact F2]. split; [exact E|reflexivity].
Qed.
Lemma seen_pos u : 0 < seen u.
Proof. unfold seen. apply Rdiv_lt_0_compat; [lra|]. pose proof Reps_pos. unfold Rmax. destruct (Rle_dec _ _); lra. Qed.
Lemma total_pos {A} (f : A -> R) l : (forall a, 0 < f a) -> 0 <= total (map f l).
Proof. intro P. induction l as [|a l IH]; cbn [map total fold_right]; [lra|]. fold (total (map f l)). specialize (P a). lra. Qed.

(** ** C150 *)
Definition stepped (v : R) (l l' : list (uload R)) : Prop := Forall2 (fun u u' => load_step v (u_load u) = Some (u_load u')) l l'.
(** What the short draws of each volt; nothing when the switch is open. *)
Definition leak (w : lsw R) : R := if s_closed (w_sw w) then h_g (w_short w) else 0.
Lemma update_facts (w w1 : lsw R) eff : lsw_update w = Some (w1, eff) -> w_ov w = false -> w_loads w <> [] ->
  w_b w1 = w_b w /\ w_ov w1 = false /\ stepped (w_v w1) (w_loads w) (w_loads w1) /\
  (s_closed (w_sw w1) = false -> w_v w1 = 0 /\ eff = 0) /\
  (s_closed (w_sw w1) = true ->
     (0 <= b_flux (w_b w) -> w_v w1 = Rmax 0 (b_p0 (w_b w) - b_flux (w_b w) * ohms_of (w_sw w1))) /\
     (b_flux (w_b w) < 0 -> w_v w1 = 0) /\
     w_short w1 = short_step (w_v w1) (w_short w) /\
     eff = 1 / (ohms_of (w_sw w1) + 1 / (100 * Reps + total (map seen (w_loads w1)) + h_g (w_short w1)))).
Proof.
  intros H O L. unfold lsw_update in H. rewrite O in H. cbn [negb] in H. rewrite andb_true_r in H.
  set (s := Trip.update_state true (w_sw w)) in *. clearbody s.
  assert (Hs : Nat.eqb (length (w_loads w)) 0 = false) by (destruct (w_loads w); [congruence|reflexivity]). rewrite Hs in H. cbn [negb andb] in H.
  match type of H with context [loads_step ?x _ _] => set (v := x) in H end.
  destruct (loads_step v (w_loads w) eps100) as [[l g]|] eqn:F; [|discriminate]. apply loads_step_facts in F as [F1 F2].
  injection H as <- <-. cbn [w_b w_ov w_v w_loads w_sw w_short].
  split; [reflexivity|]. split; [reflexivity|].
  split. { unfold stepped. revert F2. clear. induction 1 as [|? ? ? ? [A _] _ IH]; constructor; assumption. }
  split.
  - intro C. unfold v. rewrite C. cbn [andb]. split; reflexivity.
  - intro C. destruct (cond_closed s C) as [G G0].
    assert (Vp : 0 <= b_flux (w_b w) -> v = Rmax 0 (b_p0 (w_b w) - b_flux (w_b w) * ohms_of s)).
    { intro P. unfold v. rewrite C. cbn [andb]. change (n0 <=~ b_flux (w_b w)) with (Rleb 0 (b_flux (w_b w))). destruct (Rleb_spec 0 (b_flux (w_b w))); [|lra].
      rewrite nmaxR, G. change (Rmax 0 (b_p0 (w_b w) - b_flux (w_b w) / (1 / ohms_of s)) = Rmax 0 (b_p0 (w_b w) - b_flux (w_b w) * ohms_of s)).
      f_equal. field. lra. }
    assert (Vn : b_flux (w_b w) < 0 -> v = 0).
    { intro P. unfold v. rewrite C. cbn [andb]. change (n0 <=~ b_flux (w_b w)) with (Rleb 0 (b_flux (w_b w))). destruct (Rleb_spec 0 (b_flux (w_b w))); [lra|reflexivity]. }
    clearbody v. rewrite C. split; [exact Vp|]. split; [exact Vn|]. split; [reflexivity|]. rewrite F1, G, eps100R.
    change (1 / (1 / (1 / ohms_of s) + 1 / (100 * Reps + total (map seen l) + h_g (short_step v (w_short w)))) =
            1 / (ohms_of s + 1 / (100 * Reps + total (map seen l) + h_g (short_step v (w_short w))))).
    f_equal. f_equal. field. lra.
Qed.
Lemma set_adm_a0R (b : @base R) g : b_a0 (set_adm b g) = g.
Proof.
  unfold set_adm. change (n0 <~ nabs (b_a0 b -~ g)) with (Rltb 0 (Rabs (b_a0 b - g))). destruct (Rltb_spec 0 (Rabs (b_a0 b - g))) as [H|H]; [reflexivity|].
  destruct (Req_dec (b_a0 b) g) as [E|E]; [exact E|]. exfalso. apply H. apply Rabs_pos_lt. lra.
Qed.
Lemma set_adm_rest (b : @base R) g : b_p0 (set_adm b g) = b_p0 b /\ b_p1 (set_adm b g) = b_p1 b /\ b_flux (set_adm b g) = b_flux b.
Proof. unfold set_adm. destruct (n0 <~ _); repeat split. Qed.
Lemma minor_facts (w w' : lsw R) : lsw_minor w = Some w' -> w_ov w = false -> w_loads w <> [] ->
  exists w1 eff, lsw_update w = Some (w1, eff) /\ w_sw w' = w_sw w1 /\ w_loads w' = w_loads w1 /\ w_v w' = w_v w1 /\ w_short w' = w_short w1 /\
    w_ov w' = false /\ b_p0 (w_b w') = b_p0 (w_b w) /\ b_p1 (w_b w') = b_p1 (w_b w) /\ b_flux (w_b w') = b_flux (w_b w) /\ b_w0 (w_b w') = 0 /\ b_w1 (w_b w') = 0 /\
    b_a0 (w_b w') = within 0 (if b_malf (w_b w) then eff * (1 - b_malfv (w_b w)) else eff) 1000000000000000.
Proof.
  intros H O L. unfold lsw_minor in H. destruct (lsw_update w) as [[w1 eff]|] eqn:E; [|discriminate]. exists w1, eff. split; [reflexivity|].
  destruct (update_facts w w1 eff E O L) as (B & O1 & _). rewrite limit_within in H by (rewrite climR; change (n0 : R) with 0; lra).
  rewrite climR, B in H. set (g := within _ _ _) in H.
  assert (G : g = within 0 (if b_malf (w_b w) then eff * (1 - b_malfv (w_b w)) else eff) 1000000000000000) by (unfold g; destruct (b_malf (w_b w)); reflexivity).
  rewrite <- G. clearbody g. injection H as <-. unfold lsw_build. rewrite O1, B. cbn [w_sw w_loads w_v w_short w_ov with_wb w_b with_src b_p0 b_p1 b_a0 b_flux b_w0 b_w1].
  destruct (set_adm_rest (w_b w) g) as (-> & -> & ->). rewrite set_adm_a0R.
  repeat split; assumption.
Qed.
(** Closed: the loads get the voltage left after the switch. Open: nothing, and nothing flows. *)
Theorem C150_voltage : forall (w w' : lsw R), lsw_minor w = Some w' -> w_ov w = false -> w_loads w <> [] ->
  stepped (w_v w') (w_loads w) (w_loads w') /\
  (s_closed (w_sw w') = true ->
     w_v w' = (if Rle_dec 0 (b_flux (w_b w)) then Rmax 0 (b_p0 (w_b w) - b_flux (w_b w) * ohms_of (w_sw w')) else 0)) /\
  (s_closed (w_sw w') = false -> w_v w' = 0 /\ b_a0 (w_b w') = 0).
Proof.
  intros w w' H O L. destruct (minor_facts w w' H O L) as (w1 & eff & E & -> & -> & -> & _ & _ & _ & _ & _ & _ & _ & A).
  destruct (update_facts w w1 eff E O L) as (_ & _ & S & OP & CL). split; [exact S|]. split.
  - intro C. destruct (CL C) as (P & Q & _). destruct (Rle_dec 0 (b_flux (w_b w))); [apply P; assumption|apply Q; lra].
  - intro C. destruct (OP C) as (P & Q). split; [exact P|]. rewrite A, Q. apply (eq_trans (y := within 0 0 1000000000000000)).
    + f_equal. destruct (b_malf (w_b w)); lra.
    + unfold within, Rmin, Rmax. destruct (Rle_dec _ _), (Rle_dec _ _); lra.
Qed.
(** At a solution (the current is what the conductance draws from the source, the other side being
    ground) the switch and the loads form a series circuit: the voltages add up, and the current is that of
    the loads and the short, but for the hundred megohms of idle loads and a conductance of [100 eps]. *)
Theorem C150_circuit : forall (w w' : lsw R), lsw_minor w = Some w' -> w_ov w = false -> w_loads w <> [] ->
  s_closed (w_sw w') = true -> b_malf (w_b w) = false -> 1 / 1000000000000000 <= ohms_of (w_sw w') ->
  0 <= h_g (w_short w) -> 0 <= b_p0 (w_b w) -> b_flux (w_b w) = b_p0 (w_b w) * b_a0 (w_b w') ->
  let i := b_flux (w_b w) in let v := w_v w' in
  0 <= i /\ 0 <= v /\
  b_p0 (w_b w) = i * ohms_of (w_sw w') + v /\
  i = v * (100 * Reps + total (map seen (w_loads w')) + leak w') /\
  (Forall (fun u => 0 <= d_uv (u_load u) /\ d_magic (u_load u) = None) (w_loads w) ->
   Forall (fun u => Reps <= d_r (u_load u)) (w_loads w') ->
   let loads := total (map (fun u => d_i (u_load u)) (w_loads w')) in
   loads + v * leak w' <= i <= loads + v * leak w' + v * (INR (length (w_loads w')) / 100000000 + 100 * Reps)).
Proof.
  intros w w' H O L C M Rl G0 P0 F i v.
  destruct (minor_facts w w' H O L) as (w1 & eff & E & Es & El & Ev & Eh & _ & _ & _ & _ & _ & _ & A).
  unfold leak. rewrite Es, C in *. subst v. rewrite El, Ev, Eh in *.
  destruct (update_facts w w1 eff E O L) as (_ & _ & S & _ & CL). destruct (CL C) as (VP & _ & SH & EFF). clear CL.
  set (r := ohms_of (w_sw w1)) in *. set (gl := 100 * Reps + total (map seen (w_loads w1)) + h_g (w_short w1)) in *.
  assert (HG : 0 <= h_g (w_short w1)) by (rewrite SH; apply C149_short; exact G0).
  pose proof (total_pos seen (w_loads w1) seen_pos) as TP. pose proof Reps_pos as EP.
  assert (GL : 0 < gl) by (unfold gl; lra).
  assert (Q : 0 < r + 1 / gl) by (assert (0 < 1 / gl) by (apply Rdiv_lt_0_compat; lra); lra).
  assert (A' : b_a0 (w_b w') = 1 / (r + 1 / gl)).
  { rewrite A, M, EFF. unfold within. rewrite Rmin_left.
    - rewrite Rmax_right; [reflexivity|]. apply Rlt_le, Rdiv_lt_0_compat; lra.
    - apply (Rmult_le_reg_r (r + 1 / gl)); [exact Q|]. replace (1 / (r + 1 / gl) * (r + 1 / gl)) with 1 by (field; split; [lra|]; assert (0 < r * gl + 1) by nra; lra).
      assert (0 < 1 / gl) by (apply Rdiv_lt_0_compat; lra). nra. }
  fold i in F. rewrite A' in F.
  assert (I0 : 0 <= i). { rewrite F. apply Rmult_le_pos; [exact P0|]. apply Rlt_le, Rdiv_lt_0_compat; lra. }
  assert (DR : b_p0 (w_b w) = i * (r + 1 / gl)) by (rewrite F; field; assert (0 < r * gl + 1) by nra; split; lra).
  assert (IV : 0 <= i / gl) by (apply Rmult_le_pos; [exact I0|apply Rlt_le, Rinv_0_lt_compat, GL]).
  assert (V : w_v w1 = i / gl).
  { rewrite VP by exact I0. fold i. rewrite DR. replace (i * (r + 1 / gl) - i * r) with (i / gl) by (field; lra). apply Rmax_right. exact IV. }
  split; [exact I0|]. split; [rewrite V; exact IV|]. split; [rewrite V, DR; field; lra|]. split; [rewrite V; fold gl; field; lra|].
  intros U Rr. cbv zeta.
  assert (EQ : i = w_v w1 * gl) by (rewrite V; field; lra). rewrite EQ. unfold gl. rewrite V in S. set (x := i / gl) in *. rewrite V. clearbody x.
  assert (SUM : total (map (fun u => d_i (u_load u)) (w_loads w1)) <= x * total (map seen (w_loads w1)) <=
                total (map (fun u => d_i (u_load u)) (w_loads w1)) + x * (INR (length (w_loads w1)) / 100000000)).
  { revert S U Rr. clear -IV. generalize (w_loads w) (w_loads w1). intros l l' S. induction S as [|u u' l l' S1 S IH]; intros U Rr.
    - cbn. lra.
    - inversion U as [|? ? [U1 U2] U3]; subst. inversion Rr as [|? ? R1 R2]; subst. specialize (IH U3 R2).
      cbn [map total fold_right length]. fold (total (map (fun u => d_i (u_load u)) l')) (total (map seen l')). rewrite S_INR.
      assert (B : 0 <= supplied x (u_load u) <= x). { unfold supplied. rewrite U2. destruct (_ || _); lra. }
      destruct (C147_laws x (u_load u) (u_load u') U1 (proj1 B) S1) as (LV & _ & LI & LR & LB & _).
      assert (SE : seen u' = / d_r (u_load u')) by (unfold seen; rewrite Rmax_right by exact R1; unfold Rdiv; ring).
      assert (KEY : d_i (u_load u') <= x * seen u' <= d_i (u_load u') + x / 100000000).
      { rewrite SE. rewrite LV in LB. unfold supplied in *. rewrite U2 in *. destruct (d_bf (u_load u) || d_blown (u_load u)) eqn:BL.
        - (* a blown fuse: nothing drawn, a hundred megohms *)
          destruct (C147_idle x (u_load u)) as (z & Z1 & (Z2 & _ & Z4) & _).
          { left. unfold supplied. rewrite U2, BL. exact U1. }
          rewrite S1 in Z1. injection Z1 as <-. rewrite Z2, Z4. unfold Rdiv. lra.
        - unfold Rdiv in LB. unfold Rdiv. lra. }
      unfold Rdiv in *. nra. }
  nra.
Qed.
(** The power the loads get is what comes in less what the switch turns into heat. *)
Lemma flow_closed (a b v : R) k m (s : @sw R) : s_closed (update_flow a b v k m s) = true ->
  s_closed s = true /\ ohms_of (update_flow a b v k m s) = ohms_of s /\ s_power (update_flow a b v k m s) = a * a * ohms_of s.
Proof.
  intro H.
  assert (AR : s_ares (update_flow a b v k m s) = s_ares s).
  { unfold update_flow. cbv zeta. cbn [s_ares flow_with]. repeat match goal with |- context [if ?c then _ else _] => destruct c; cbn [s_ares flow_with] end; reflexivity. }
  assert (OH : ohms_of (update_flow a b v k m s) = ohms_of s) by (unfold ohms_of; rewrite AR; reflexivity).
  revert H. rewrite OH. unfold update_flow. cbv zeta. cbn [s_closed flow_with s_power s_fclosed s_prot s_sens s_apos s_prio s_aneg s_ext s_cur].
  match goal with |- context [conductance ?x] => set (s1 := x) end. intro C.
  assert (X : s_closed s = true /\ s_ares s1 = s_ares s /\ s_cur s1 = a).
  { revert C. unfold s1. clear.
    destruct (s_closed s) eqn:C0.
    - repeat match goal with |- context [if ?c then _ else _] => destruct c; cbn [s_closed flow_with s_ares s_cur s_sens s_aneg s_prio s_ext] end;
        try discriminate; rewrite ?C0; intros; repeat split.
    - repeat match goal with |- context [if ?c then _ else _] => destruct c; cbn [s_closed flow_with s_ares s_cur s_sens s_aneg s_prio s_ext] end; discriminate || (rewrite C0; discriminate). }
  destruct X as (X1 & X2 & X3). split; [exact X1|]. split; [reflexivity|].
  destruct (cond_closed s1 C) as [G G0]. rewrite G, X3.
  replace (ohms_of s1) with (ohms_of s) in * by (unfold ohms_of; rewrite X2; reflexivity).
  assert (0 < 1 / ohms_of s) by (apply Rdiv_lt_0_compat; lra).
  change (n0 <~ 1 / ohms_of s) with (Rltb 0 (1 / ohms_of s)). destruct (Rltb_spec 0 (1 / ohms_of s)); [|lra].
  change (Rabs (a * a) / (1 / ohms_of s) = a * a * ohms_of s). rewrite Rabs_pos_eq by nra. field. lra.
Qed.
Theorem C150_power : forall k (w : lsw R), (0 < k)%Z -> w_ov w = false -> w_ref w = 0 ->
  snd (lsw_confirm k w) = Confirm -> let w' := lsw_flows (fst (lsw_confirm k w)) in
  let i := b_flux (w_b w') in let drop := b_p0 (w_b w) - b_p1 (w_b w) in
  (Rmax (b_p0 (w_b w)) (b_p1 (w_b w)) * (100 * Reps) <= Rabs drop -> i = drop * b_a0 (w_b w)) /\
  (s_closed (w_sw w') = true -> w_p w' = i * (drop - i * ohms_of (w_sw w'))).
Proof.
  intros k w K O RF. unfold lsw_confirm. destruct (Z.ltb_spec 0 k); [|lia].
  set (fl := if (1 =? k)%Z then _ else _). destruct fl as [l t]. destruct t; [discriminate|].
  unfold lsw_trip. set (w0 := mklsw _ _ _ l _ _ _ _ _ _).
  assert (O0 : w_ov w0 = false) by exact O.
  set (w1 := lsw_flux _).
  assert (B1 : w_b w1 = with_flux (with_drop (w_b w) (delta (w_b w))) (plain_flux (with_drop (w_b w) (delta (w_b w))))).
  { unfold w1, lsw_flux. cbn [w_ov with_wb]. rewrite O0. reflexivity. }
  assert (S1 : w_sw w1 = w_sw w). { unfold w1, lsw_flux. cbn [w_ov with_wb]. rewrite O0. reflexivity. }
  assert (O1 : w_ov w1 = false). { unfold w1, lsw_flux. cbn [w_ov with_wb]. rewrite O0. exact O0. }
  assert (R1 : w_ref w1 = 0). { unfold w1, lsw_flux. cbn [w_ov with_wb]. rewrite O0. exact RF. }
  clearbody w1. cbn [fst snd]. intros _. unfold lsw_flows, lsw_power. cbn [w_b w_ov with_wb].
  unfold lsw_flux. cbn [w_ov w_b with_wb w_ref w_sw w_v]. rewrite O1. cbn [w_ov w_b with_wb w_ref w_sw w_v]. rewrite ?O1. rewrite R1, B1.
  change (n0 ==~ (0:R)) with (Reqb 0 0). destruct (Reqb_spec 0 0); [|lra]. cbn [negb andb w_b w_sw w_p b_flux with_flux with_drop compute_power with_power b_power b_p0 b_p1 delta b_a0 b_drop plain_flux].
  set (f := plain_flux _). set (d := b_p0 (w_b w) -~ b_p1 (w_b w)) in *. change (b_p0 (w_b w) - b_p1 (w_b w)) with d.
  assert (FE : f = if Rltb (Rabs d) (Rmax (b_p0 (w_b w)) (b_p1 (w_b w)) * (100 * Reps)) then 0 else d * b_a0 (w_b w)).
  { transitivity (if nabs d <~ nmax (b_p0 (w_b w)) (b_p1 (w_b w)) *~ eps100 then n0 else d *~ b_a0 (w_b w)); [reflexivity|].
    rewrite nmaxR, eps100R. reflexivity. }
  change (plain_flux _) with f. 
  split.
  - intro B. rewrite FE. destruct (Rltb_spec (Rabs d) (Rmax (b_p0 (w_b w)) (b_p1 (w_b w)) * (100 * Reps))); [lra|reflexivity].
  - rewrite S1. intro C.
    match goal with |- context [update_flow ?a ?b ?c ?d ?e ?g] => destruct (flow_closed a b c d e g C) as (_ & -> & ->) end.
    change (- (- f * d) - f * f * ohms_of (w_sw w) = f * (d - f * ohms_of (w_sw w))). ring.
Qed.
Print Assumptions C150_voltage. Print Assumptions C150_circuit. Print Assumptions C150_power.
(** A switch of one ohm, closed or open, in front of a load of one ohm. *)
Definition sw0 (c : bool) : @sw R :=
  {| s_fclosed := false; s_fopen := false; s_fres := false; s_fpct := 0; s_mpos := None; s_mneg := None; s_ign := false;
     s_cur := 0; s_sens := 0; s_volt := 0; s_power := 0; s_cmd := c; s_closed := c; s_pos := false; s_neg := false; s_ext := false;
     s_wait := false; s_just := false; s_prio := 1; s_reset := false; s_dres := 1; s_ares := 1; s_prot := false;
     s_dpos := 0; s_apos := 0; s_dneg := 0; s_aneg := 0 |}.
Lemma sw0_state c : Trip.update_state true (sw0 c) = sw0 c.
Proof.
  unfold Trip.update_state, sw0.
  cbn [s_fclosed s_fopen s_fres s_fpct s_mpos s_mneg s_ign s_cur s_sens s_volt s_power s_cmd s_closed s_pos s_neg s_ext s_wait s_just s_prio s_reset s_dres s_ares s_prot s_dpos s_apos s_dneg s_aneg s_tripped orb andb negb].
  change ((1:R) <=~ n0) with (Rleb 1 0). destruct (Rleb_spec 1 0); [lra|]. reflexivity.
Qed.
Definition ld0 (fuse : R) (i p : R) : load R := mkload false 1 0 0 fuse On None None false None false (i * 1) true i p 1.
Definition b0 (p0 f a : R) : @base R := mkbase p0 0 a (- a) (- a) a 0 0 false f 0 0 false 0.
Definition w0 (p0 f a fuse i p v : R) : lsw R :=
  mklsw (b0 p0 f a) true (sw0 true) [mkuload 1 0 0 (ld0 fuse i p)] (mkshort None None None None None 0 0 0) 0 v 0 false 0.
Lemma ld0_step v fuse i p : 0 < v -> load_step v (ld0 fuse i p) =
  Some (mkload false 1 0 0 fuse On None None false None false v true (v / 1) (v * v / 1) 1).
Proof.
  intro P. unfold load_step, load_begin, ld0. cbn [d_cp d_magic d_bf d_blown d_uv orb with_load d_norm d_stby d_fuse d_mode d_oc d_op].
  unfold resist_calc. cbn [d_valid d_oc d_op d_mode d_norm]. change ((0:R) <~ v) with (Rltb 0 v). destruct (Rltb_spec 0 v); [|lra]. cbn [negb].
  rewrite resist_of_ohms. rewrite resist_power_pos by (eapply Rlt_le_trans; [|apply ohms_pos]; lra).
  repeat match goal with |- context [ohms (d_norm ?x)] => change (ohms (d_norm x)) with (ohms 1) end.
  replace (ohms 1) with 1 by (unfold ohms, within, Rmin, Rmax; destruct (Rlt_dec 0 1); [|lra]; destruct (Rle_dec 1 100000000); [|lra]; destruct (Rle_dec (1/10) 1); lra).
  reflexivity.
Qed.
Definition volts : R := 10 + 500 * Reps.
Definition amps : R := 5 + 500 * Reps.
Lemma w0_step a fuse i p v : exists w', lsw_minor (w0 volts amps a fuse i p v) = Some w' /\
  w_v w' = 5 /\ b_a0 (w_b w') = amps / volts /\ b_p0 (w_b w') = volts /\ s_closed (w_sw w') = true /\ ohms_of (w_sw w') = 1 /\
  w_loads w' = [mkuload 1 0 0 (mkload false 1 0 0 fuse On None None false None false 5 true (5 / 1) (5 * 5 / 1) 1)].
Proof.
  pose proof Reps_pos as EP. pose proof Reps_small as ES. unfold volts, amps in *.
  set (w := w0 _ _ _ _ _ _ _).
  assert (C1 : conductance (sw0 true) = 1 / 1).
  { destruct (cond_closed (sw0 true) eq_refl) as [-> _]. unfold ohms_of, sw0. cbn [s_ares]. destruct (Rlt_dec 0 1); [reflexivity|lra]. }
  assert (OH : ohms_of (sw0 true) = 1) by (unfold ohms_of, sw0; cbn [s_ares]; destruct (Rlt_dec 0 1); [reflexivity|lra]).
  assert (V : nmax n0 (10 + 500 * Reps -~ (5 + 500 * Reps) /~ conductance (sw0 true)) = 5).
  { rewrite nmaxR, C1. change (Rmax 0 (10 + 500 * Reps - (5 + 500 * Reps) / (1 / 1)) = 5). rewrite Rmax_right; lra. }
  assert (U : exists w1, lsw_update w = Some (w1, 1 / (1 / (1 / 1) + 1 / (100 * Reps + 1 / Rmax Reps 1 + 0))) /\ w_v w1 = 5 /\ w_b w1 = w_b w /\ w_sw w1 = sw0 true /\ w_ov w1 = false /\
     w_loads w1 = [mkuload 1 0 0 (mkload false 1 0 0 fuse On None None false None false 5 true (5 / 1) (5 * 5 / 1) 1)]).
  { unfold lsw_update, w, w0. cbn [w_ov w_sw w_loads length Nat.eqb negb w_b b_flux b_p0 b0 w_short w_ground w_ref w_p w_ovv andb]. rewrite sw0_state.
    change (s_closed (sw0 true)) with true. cbn [andb]. change (n0 <=~ 5 + 500 * Reps) with (Rleb 0 (5 + 500 * Reps)). destruct (Rleb_spec 0 (5 + 500 * Reps)); [|lra].
    rewrite V. cbn [loads_step u_load]. rewrite ld0_step by lra. cbn [with_uload u_frac u_period u_timer d_r]. rewrite nmaxR, eps100R, C1.
    eexists. split; [reflexivity|]. cbn [w_v w_b w_sw w_ov w_loads]. split; [reflexivity|]. split; [reflexivity|]. split; [reflexivity|]. split; reflexivity. }
  destruct U as (w1 & U & V1 & B1 & S1 & O1 & L1). unfold lsw_minor. rewrite U, B1. change (b_malf (w_b w)) with false. cbn iota.
  rewrite limit_within by (rewrite climR; change (n0 : R) with 0; lra). rewrite climR.
  eexists. split; [reflexivity|]. unfold lsw_build. rewrite O1, B1. cbn [w_v with_wb w_b with_src b_a0 b_p0 w_sw w_loads].
  destruct (set_adm_rest (w_b w) (within n0 (1 / (1 / (1 / 1) + 1 / (100 * Reps + 1 / Rmax Reps 1 + 0))) 1000000000000000)) as (-> & _ & _). rewrite set_adm_a0R.
  split; [exact V1|]. split.
  - rewrite Rmax_right by lra. change (n0:R) with 0. unfold within.
    assert (Q : 1 / (1 / (1 / 1) + 1 / (100 * Reps + 1 / 1 + 0)) = (5 + 500 * Reps) / (10 + 500 * Reps)) by (field; split; lra). rewrite Q.
    assert (B : 0 < (5 + 500 * Reps) / (10 + 500 * Reps) < 1).
    { split; [apply Rdiv_lt_0_compat; lra|]. apply (Rmult_lt_reg_r (10 + 500 * Reps)); [lra|]. replace ((5 + 500 * Reps) / (10 + 500 * Reps) * (10 + 500 * Reps)) with (5 + 500 * Reps) by (field; lra). lra. }
    rewrite Rmin_left by lra. rewrite Rmax_right by lra. reflexivity.
  - repeat split; try (rewrite S1; exact OH || reflexivity). exact L1.
Qed.
(** The circuit theorem applies to it. *)
Example C150_ex : exists w w', lsw_minor w = Some w' /\ w_ov w = false /\ w_loads w <> [] /\ s_closed (w_sw w') = true /\
  b_malf (w_b w) = false /\ 1 / 1000000000000000 <= ohms_of (w_sw w') /\ 0 <= h_g (w_short w) /\ 0 < b_p0 (w_b w) /\
  b_flux (w_b w) = b_p0 (w_b w) * b_a0 (w_b w').
Proof.
  destruct (w0_step 0 0 0 0 0) as (w' & H & _ & A & _ & C & O & _). eexists. exists w'. split; [exact H|].
  pose proof Reps_pos. unfold volts, amps in *. repeat split; try exact C; try discriminate; cbn [w0 w_b b0 b_p0 b_flux w_short h_g]; try lra.
  rewrite A. field. lra.
Qed.

(** A step moves every load's duty cycle on before the loads are fed. *)
Theorem C150_step : forall dt (w w' : lsw R), lsw_step dt w = Some w' -> w_ov w = false -> w_loads w <> [] ->
  stepped (w_v w') (map (duty_step dt) (w_loads w)) (w_loads w').
Proof.
  intros dt w w' H O L. unfold lsw_step in H. apply (C150_voltage _ _ H); cbn [w_ov w_loads]; [exact O|]. destruct (w_loads w); [contradiction|discriminate].
Qed.
Print Assumptions C150_step.
(** A switch with nothing on it is a plain resistor between its ports, a femtosiemens to ground, and none when open. *)
Theorem C150_bare : forall (w w' : lsw R), lsw_minor w = Some w' -> w_ov w = false -> w_loads w = [] -> b_malf (w_b w) = false ->
  w_v w' = 0 /\ w_loads w' = [] /\
  b_a0 (w_b w') = (if s_closed (w_sw w') then (if w_ground w then 1 / 1000000000000000 else Rmin (1 / ohms_of (w_sw w')) 1000000000000000) else 0).
Proof.
  intros w w' H O L M. unfold lsw_minor, lsw_update in H. rewrite O, L in H. cbn [length Nat.eqb negb andb loads_step] in H.
  set (s := Trip.update_state true (w_sw w)) in *. clearbody s. cbn [w_b] in H. rewrite M in H. rewrite limit_within in H by (rewrite climR; change (n0 : R) with 0; lra).
  rewrite climR in H. injection H as <-. unfold lsw_build, with_wb. cbn [w_ov w_v w_b w_sw w_loads]. cbn [w_v w_b w_sw w_loads with_src b_a0]. rewrite set_adm_a0R.
  split; [reflexivity|]. split; [reflexivity|]. destruct (s_closed s) eqn:C.
  - destruct (w_ground w).
    + change (within 0 (1 / 1000000000000000) 1000000000000000 = 1 / 1000000000000000). unfold within. rewrite Rmin_left, Rmax_right; lra.
    + destruct (cond_closed s C) as [G G0]. rewrite G. change (within 0 (1 / (1 / (1 / ohms_of s))) 1000000000000000 = Rmin (1 / ohms_of s) 1000000000000000).
      replace (1 / (1 / (1 / ohms_of s))) with (1 / ohms_of s) by (field; lra). assert (0 < 1 / ohms_of s) by (apply Rdiv_lt_0_compat; lra).
      unfold within. apply Rmax_right. unfold Rmin. destruct (Rle_dec _ _); lra.
  - change (within 0 0 1000000000000000 = 0). unfold within. rewrite Rmin_left, Rmax_right; lra.
Qed.
Print Assumptions C150_bare.
Example C150_bare_ex : exists w w' : lsw R, lsw_minor w = Some w' /\ w_ov w = false /\ w_loads w = [] /\ b_malf (w_b w) = false /\ s_closed (w_sw w') = true.
Proof.
  pose (w := mklsw (b0 10 0 0) true (sw0 true) [] (mkshort None None None None None 0 0 0) 0 0 0 false 0).
  exists w. unfold lsw_minor, lsw_update, w. cbn [w_ov w_loads w_sw w_b]. rewrite sw0_state.
  cbn [length Nat.eqb negb andb loads_step]. eexists. split; [reflexivity|]. repeat split.
Qed.

(** ** C151 *)
(** The test of a fuse; nothing else changes. *)
Theorem C151_fuse : forall v (l l' : load R) b, update_fuse v l = (l', b) ->
  (b = true <-> 0 < d_fuse l /\ d_blown l = false /\ d_fuse l < v / Rmax (d_r l) Reps) /\
  d_blown l' = d_blown l || b /\ d_r l' = d_r l /\ d_i l' = d_i l /\ d_p l' = d_p l /\ d_mode l' = d_mode l /\ d_fuse l' = d_fuse l.
Proof.
  intros v l l' b. unfold update_fuse. rewrite nmaxR. change (n0 <~ d_fuse l) with (Rltb 0 (d_fuse l)).
  change (d_fuse l <~ v /~ Rmax (d_r l) neps) with (Rltb (d_fuse l) (v / Rmax (d_r l) Reps)).
  destruct (Rltb_spec 0 (d_fuse l)), (d_blown l) eqn:B, (Rltb_spec (d_fuse l) (v / Rmax (d_r l) Reps)); cbn [andb negb];
    injection 1 as <- <-; cbn [with_load d_blown d_r d_i d_p d_mode d_fuse]; rewrite ?B;
    (split; [split; [try discriminate; intros; repeat split; assumption|intros (? & ? & ?); try discriminate; try reflexivity; contradiction || lra]|repeat split]).
Qed.
(** A reset makes the fuse whole and changes nothing else. *)
Theorem C151_reset : forall l : load R, let l' := reset_fuse l in
  d_blown l' = false /\ d_r l' = d_r l /\ d_i l' = d_i l /\ d_p l' = d_p l /\ d_v l' = d_v l /\ d_mode l' = d_mode l /\ d_fuse l' = d_fuse l /\
  (d_blown l = false -> l' = l).
Proof. intro l. cbv zeta. unfold reset_fuse, with_load. repeat (split; [reflexivity|]). intro B. destruct l. cbn in B. subst. reflexivity. Qed.
Print Assumptions C151_reset.
(** A blown fuse stays blown through everything but a reset, and its load draws nothing. *)
Inductive levent := LStep (v : R) | LFuse (v : R) | LMode (m : mode) | LOverride (c p : option R).
Definition lapply (l : load R) (e : levent) : option (load R) :=
  match e with
  | LStep v => load_step v l
  | LFuse v => Some (fst (update_fuse v l))
  | LMode m => Some (with_mode l m)
  | LOverride c p => Some (mkload (d_cp l) (d_norm l) (d_stby l) (d_uv l) (d_fuse l) (d_mode l) c p (d_bf l) (d_magic l)
                                  (d_blown l) (d_v l) (d_valid l) (d_i l) (d_p l) (d_r l))
  end.
Fixpoint lrun (l : load R) (es : list levent) : option (load R) :=
  match es with [] => Some l | e :: es => match lapply l e with Some l => lrun l es | None => None end end.
Lemma with_load_keeps v (l l' : load R) : load_step v l = Some l' -> d_blown l' = d_bf l || d_blown l /\ d_magic l' = d_magic l /\ d_uv l' = d_uv l /\ d_bf l' = d_bf l.
Proof.
  unfold load_step. set (b := load_begin v l).
  assert (B : d_blown b = d_bf l || d_blown l /\ d_magic b = d_magic l /\ d_uv b = d_uv l /\ d_bf b = d_bf l) by (repeat split). clearbody b.
  unfold cp_calc, resist_calc, cp_power, resist_power.
  repeat match goal with |- context [if ?c then _ else _] => destruct c | |- context [match ?c with _ => _ end] => destruct c end;
    intro H; try discriminate H; injection H as <-; exact B.
Qed.
Theorem C151_stays : forall es (l l' : load R), d_blown l = true -> d_magic l = None -> 0 <= d_uv l -> lrun l es = Some l' ->
  d_blown l' = true /\ (forall v, exists l2, load_step v l' = Some l2 /\ idle l2 /\ d_v l2 = 0).
Proof.
  induction es as [|e es IH]; intros l l' B M U H; cbn [lrun] in H.
  - injection H as <-. split; [exact B|]. intro v. destruct (C147_idle v l) as (l2 & E & I & V).
    + left. unfold supplied. rewrite M, B, orb_true_r. exact U.
    + exists l2. split; [exact E|]. split; [exact I|]. rewrite V. unfold supplied. rewrite M, B, orb_true_r. reflexivity.
  - destruct (lapply l e) as [l1|] eqn:E; [|discriminate]. apply (IH l1 l'); [| | |exact H].
    + destruct e; cbn in E.
      * apply with_load_keeps in E as (-> & _). rewrite B. apply orb_true_r.
      * injection E as <-. destruct (update_fuse v l) as [x b] eqn:F. cbn [fst]. apply C151_fuse in F as (_ & -> & _). rewrite B. reflexivity.
      * injection E as <-. exact B.
      * injection E as <-. exact B.
    + destruct e; cbn in E.
      * apply with_load_keeps in E as (_ & -> & _). exact M.
      * injection E as <-. unfold update_fuse. destruct (_ && _); exact M.
      * injection E as <-. exact M.
      * injection E as <-. exact M.
    + destruct e; cbn in E.
      * apply with_load_keeps in E as (_ & _ & -> & _). exact U.
      * injection E as <-. unfold update_fuse. destruct (_ && _); exact U.
      * injection E as <-. exact U.
      * injection E as <-. exact U.
Qed.
(** Whether the fuse of a load holds against the source's voltage. *)
Definition holds (v : R) (u : uload R) : Prop :=
  let l := u_load u in 0 < d_fuse l -> d_blown l = false -> v / Rmax (d_r l) Reps <= d_fuse l.
Lemma fuses_facts v : forall l, (forall l', fuses v l = (l', false) -> l' = l /\ Forall (holds v) l) /\
  (forall l', fuses v l = (l', true) -> exists l1 u l2, l = l1 ++ u :: l2 /\ Forall (holds v) l1 /\ ~ holds v u /\
     d_blown (u_load u) = false /\ l' = l1 ++ with_uload u (fst (update_fuse v (u_load u))) :: l2 /\ d_blown (fst (update_fuse v (u_load u))) = true).
Proof.
  induction l as [|u l [IH1 IH2]]; split; intros l' H; cbn [fuses] in H; try discriminate.
  - injection H as <-. split; [reflexivity|constructor].
  - destruct (update_fuse v (u_load u)) as [d b] eqn:E. destruct b; [discriminate|]. destruct (fuses v l) as [l1 b1]. injection H as <- ->.
    destruct (IH1 l1 eq_refl) as [-> F]. pose proof E as E'. apply C151_fuse in E as [E _].
    assert (d = u_load u) as -> by (unfold update_fuse in E'; destruct (_ && _); [discriminate|]; injection E' as <-; reflexivity).
    split; [destruct u; reflexivity|]. constructor; [|exact F]. intros A B. apply Rnot_lt_le. intro C.
    assert (false = true) by (apply E; repeat split; assumption). discriminate.
  - destruct (update_fuse v (u_load u)) as [d b] eqn:E. destruct b.
    + injection H as <-. exists [], u, l. rewrite E. cbn [fst app]. apply C151_fuse in E as (E & B & _). destruct (proj1 E eq_refl) as (E1 & E2 & E3).
      split; [reflexivity|]. split; [constructor|]. split; [intro Hh; specialize (Hh E1 E2); lra|]. split; [exact E2|]. split; [reflexivity|]. rewrite B. apply orb_true_r.
    + destruct (fuses v l) as [l1 b1]. injection H as <- ->. destruct (IH2 l1 eq_refl) as (a & x & c & -> & F & N & B & -> & G).
      assert (d = u_load u) as -> by (unfold update_fuse in E; destruct (_ && _); [discriminate|]; injection E as <-; reflexivity).
      apply C151_fuse in E as [E _].
      exists (u :: a), x, c. split; [reflexivity|]. split.
      { constructor; [|exact F]. intros A B'. apply Rnot_lt_le. intro C. assert (false = true) by (apply E; repeat split; assumption). discriminate. }
      split; [exact N|]. split; [exact B|]. split; [destruct u; reflexivity|exact G].
Qed.
(** At the first converged pass: if all fuses hold none changes; if one does not, the solution is rejected
    and the first such fuse, and no other, blows.  A confirmed solution has no load above its limit. *)
Theorem C151_confirm : forall (w w' : lsw R) x, lsw_confirm 1 w = (w', x) ->
  (Forall (holds (b_p0 (w_b w))) (w_loads w) -> w_loads w' = w_loads w) /\
  (~ Forall (holds (b_p0 (w_b w))) (w_loads w) -> x = Reject /\ exists l1 u l2,
     w_loads w = l1 ++ u :: l2 /\ Forall (holds (b_p0 (w_b w))) l1 /\ ~ holds (b_p0 (w_b w)) u /\
     w_loads w' = l1 ++ with_uload u (fst (update_fuse (b_p0 (w_b w)) (u_load u))) :: l2 /\
     d_blown (fst (update_fuse (b_p0 (w_b w)) (u_load u))) = true /\ w_sw w' = w_sw w) /\
  (x = Confirm -> forall u v, In u (w_loads w') -> 0 < d_fuse (u_load u) -> d_blown (u_load u) = false ->
     Reps <= d_r (u_load u) -> v <= b_p0 (w_b w) -> v / d_r (u_load u) <= d_fuse (u_load u)).
Proof.
  intros w w' x H. unfold lsw_confirm in H. cbn [Z.ltb Z.eqb Z.compare Pos.eqb] in H.
  destruct (fuses (b_p0 (w_b w)) (w_loads w)) as [l b] eqn:F. destruct (fuses_facts (b_p0 (w_b w)) (w_loads w)) as [F1 F2].
  assert (KEEP : forall z : lsw R, w_loads (fst (lsw_trip 1 z)) = w_loads z).
  { intro z. unfold lsw_trip. cbn [fst w_loads]. unfold lsw_flux. destruct (w_ov (with_wb _ _)); reflexivity. }
  destruct b.
  - injection H as <- <-. destruct (F2 l F) as (l1 & u & l2 & E & A & N & B & E' & G).
    split; [intro C; exfalso; rewrite E in C; apply Forall_app in C as [_ C]; inversion C; contradiction|].
    split; [|discriminate]. intros _. split; [reflexivity|]. exists l1, u, l2. cbn [w_loads w_sw]. repeat split; assumption.
  - destruct (F1 l F) as [-> HO]. cbn iota in H. match type of H with lsw_trip 1 ?z = _ => pose proof (KEEP z) as H' end. rewrite H in H'. cbn [fst w_loads] in H'. rewrite H'. clear H H'.
    split; [reflexivity|]. split; [contradiction|]. intros _ u v I P B Rr V. rewrite Forall_forall in HO. specialize (HO u I P B).
    rewrite Rmax_left in HO by exact Rr. pose proof Reps_pos. apply Rle_trans with (2 := HO). unfold Rdiv. apply Rmult_le_compat_r; [|exact V].
    apply Rlt_le, Rinv_0_lt_compat. lra.
Qed.
(** The fuse sees the source's voltage, not the load's: at a converged solution a fuse of 6 A blows
    although its load draws 5 A. *)
Theorem C151_early_refuted : exists (w w1 w2 : lsw R) u u', lsw_minor w = Some w1 /\
  b_flux (w_b w) = b_p0 (w_b w) * b_a0 (w_b w1) /\ w_loads w1 = [u] /\ lsw_confirm 1 w1 = (w2, Reject) /\ w_loads w2 = [u'] /\
  d_fuse (u_load u) = 6 /\ d_i (u_load u) = 5 /\ d_v (u_load u) / d_r (u_load u) = 5 /\
  d_blown (u_load u) = false /\ d_blown (u_load u') = true.
Proof.
  pose proof Reps_pos as EP. pose proof Reps_small as ES.
  destruct (w0_step 0 6 0 0 0) as (w1 & H & V & A & P & C & O & L).
  destruct (lsw_confirm 1 w1) as [w2 x] eqn:F. pose proof F as F'. apply C151_confirm in F as (_ & F2 & _). rewrite L, P in F2.
  assert (N : ~ Forall (holds volts) [mkuload 1 0 0 (mkload false 1 0 0 6 On None None false None false 5 true (5 / 1) (5 * 5 / 1) 1)]).
  { intro Q. inversion Q as [|? ? Q1 _]. unfold holds in Q1. cbn [u_load d_fuse d_blown d_r] in Q1. specialize (Q1 ltac:(lra) eq_refl).
    rewrite Rmax_left in Q1 by lra. unfold volts in Q1. lra. }
  destruct (F2 N) as (-> & l1 & u & l2 & E & _ & _ & E' & B & _). clear F2.
  assert (l1 = []) as ->.
  { destruct l1 as [|y l1]; [reflexivity|]. destruct l1; cbn in E; discriminate E. }
  cbn [app] in E, E'. injection E as <- <-.
  exists (w0 volts amps 0 6 0 0 0), w1, w2. eexists. eexists. split; [exact H|].
  split. { rewrite A. cbn [w0 w_b b0 b_flux b_p0]. field. unfold volts. lra. }
  split; [exact L|]. split; [exact F'|]. split; [exact E'|]. cbn [u_load with_uload d_fuse d_i d_v d_r d_blown].
  split; [reflexivity|]. split; [lra|]. split; [lra|]. split; [reflexivity|exact B].
Qed.
Print Assumptions C151_fuse. Print Assumptions C151_stays. Print Assumptions C151_confirm. Print Assumptions C151_early_refuted.

(** ** C152 *)
Definition conductor (b : @base R) : Prop := b_a1 b = - b_a0 b /\ b_a2 b = - b_a0 b /\ b_a3 b = b_a0 b.
Lemma lim_nonneg (x : R) : 0 <= limit_range n0 x BasicLinks.conductance_limit.
Proof. rewrite limit_within by (rewrite climR; change (n0 : R) with 0; lra). unfold within. apply Rmax_l. Qed.
Lemma minor_build (w w' : lsw R) : lsw_minor w = Some w' -> exists w1 g, 0 <= g /\ w' = lsw_build g w1 /\ w_b w1 = w_b w /\ w_ov w1 = w_ov w /\ w_ovv w1 = w_ovv w /\ w_ground w1 = w_ground w /\
  w_sw w' = Trip.update_state true (if w_ov w then sapply (w_sw w) (SCommand false) else w_sw w) /\ (w_ov w = true -> w_v w' = w_ovv w /\ stepped (w_v w') (w_loads w) (w_loads w')).
Proof.
  unfold lsw_minor, lsw_update. intro H.
  match type of H with context [loads_step ?x _ _] => set (v := x) in H end.
  destruct (loads_step v (w_loads w) eps100) as [[l g]|] eqn:F; [|discriminate]. cbn zeta in H. injection H as <-.
  eexists. eexists. split; [|split; [reflexivity|]].
  - apply lim_nonneg.
  - cbn [w_b w_ov w_ovv w_ground]. repeat split; unfold lsw_build; cbn [w_sw w_v w_loads with_wb].
    + unfold v. rewrite H. reflexivity.
    + apply loads_step_facts in F as [_ F]. unfold stepped. clearbody v. revert F. clear. induction 1 as [|? ? ? ? [A _] _ IH]; constructor; assumption.
Qed.
(** A switch never overridden is a conductor. *)
Theorem C152_conductor : forall (w w' : lsw R), lsw_minor w = Some w' -> w_ov w = false -> conductor (w_b w) ->
  conductor (w_b w') /\ b_w0 (w_b w') = 0 /\ b_w1 (w_b w') = 0.
Proof.
  intros w w' H O C. destruct (minor_build w w' H) as (w1 & g & _ & -> & B & O1 & _). unfold lsw_build. rewrite O1, O, B. cbn [w_b with_wb with_src b_w0 b_w1].
  split; [|split; reflexivity]. unfold conductor, set_adm in *. destruct (n0 <~ _); cbn [with_src b_a0 b_a1 b_a2 b_a3]; [repeat split|exact C].
Qed.
(** Overridden: the loads get the override voltage, the source side is left alone, and a node at the other
    side is driven towards that voltage. *)
Theorem C152_override : forall (w w' : lsw R), lsw_minor w = Some w' -> w_ov w = true ->
  (conductor (w_b w) \/ (b_a1 (w_b w) = 0 /\ b_a2 (w_b w) = 0)) ->
  w_v w' = w_ovv w /\ stepped (w_v w') (w_loads w) (w_loads w') /\
  b_a0 (w_b w') = 0 /\ b_a1 (w_b w') = 0 /\ b_a2 (w_b w') = 0 /\ b_a3 (w_b w') = 100000000 /\
  b_w0 (w_b w') = 0 /\ b_w1 (w_b w') = 100000000 * w_ovv w /\ s_cmd (w_sw w') = false /\
  (s_fclosed (w_sw w) = false -> s_wait (w_sw w) = false -> s_tripped (w_sw w) = false -> s_closed (w_sw w') = false) /\
  (w_ground w = false -> forall p1, b_flux (w_b (lsw_flux (with_wb w' (with_pot (w_b w') (b_p0 (w_b w')) p1)))) = 100000000 * (w_ovv w - p1)).
Proof.
  intros w w' H O C. destruct (minor_build w w' H) as (w1 & g & _ & E & B & O1 & V1 & G1 & S & X). destruct (X O) as [V ST]. rewrite O in S, O1. clear H X.
  split; [exact V|]. split; [exact ST|].
  assert (K : let b := w_b w' in b_a0 b = 0 /\ b_a1 b = 0 /\ b_a2 b = 0 /\ b_a3 b = 100000000 /\ b_w0 b = 0 /\ b_w1 b = 100000000 * w_ovv w).
  { rewrite E. unfold lsw_build. rewrite O1, B, V1. cbn [w_b with_wb with_src b_w0 b_w1 b_a0 b_a1 b_a2 b_a3].
    unfold override_adm. change (b_a0 (w_b w) ==~ n0) with (Reqb (b_a0 (w_b w)) 0). change (b_a3 (w_b w) ==~ override_g) with (Reqb (b_a3 (w_b w)) override_g).
    rewrite dec_1e8. destruct (Reqb_spec (b_a0 (w_b w)) 0) as [Z|Z], (Reqb_spec (b_a3 (w_b w)) 100000000) as [Y|Y]; cbn [negb orb b_a0 b_a1 b_a2 b_a3];
      try (repeat split; rnum; lra).
    destruct C as [(C1 & C2 & C3)|[C1 C2]]; [lra|]. repeat split; try assumption. rewrite Y. rnum. lra. }
  cbv zeta in K. destruct K as (K0 & K1 & K2 & K3 & K4 & K5). repeat split; try assumption.
  - rewrite S. unfold Trip.update_state. cbn [s_cmd sapply]. reflexivity.
  - intros F W T. rewrite S. unfold Trip.update_state. cbn [s_closed s_cmd s_wait s_fclosed s_fopen sapply].
    change (s_tripped _) with (s_tripped (w_sw w)). rewrite T, W, F. cbn [negb andb]. destruct (s_fopen (w_sw w)); reflexivity.
  - intros G p1. unfold lsw_flux. assert (O2 : w_ov w' = true) by (rewrite E; unfold lsw_build; exact O1).
    assert (G2 : w_ground w' = false) by (rewrite E; unfold lsw_build; cbn [with_wb w_ground]; rewrite G1; exact G).
    cbn [w_ov with_wb w_ground]. rewrite O2, G2. cbn [w_b with_wb with_flux b_flux with_drop b_drop b_a3 b_w1 with_pot b_p1].
    rewrite K3, K5. change (- p1 * 100000000 + 100000000 * w_ovv w = 100000000 * (w_ovv w - p1)). ring.
Qed.
(** Giving up the override leaves the switch open, as the override has commanded it, and then a conductance
    of 1e8 from its node to ground remains: the node is held at zero volts although the switch says that
    nothing flows. *)
Theorem C152_release_refuted : exists (w w1 w2 : lsw R),
  conductor (w_b w) /\ w_ov w = false /\ w_ground w = false /\
  lsw_minor (set_override true 28 w) = Some w1 /\ lsw_minor (set_override false 0 w1) = Some w2 /\
  s_closed (w_sw w2) = false /\ b_a0 (w_b w2) = 0 /\ b_a3 (w_b w2) = 100000000 /\ b_w1 (w_b w2) = 0 /\ b_upd (w_b w1) = true /\
  (forall p1, b_flux (w_b (lsw_flux (with_wb w2 (with_drop (with_pot (w_b w2) (b_p0 (w_b w2)) p1) (b_p0 (w_b w2) - p1))))) = 0) /\
  (forall n w3, Nat.iter n (fun x => match x with Some x => lsw_minor x | None => None end) (Some w2) = Some w3 ->
     b_a0 (w_b w3) = 0 /\ b_a3 (w_b w3) = 100000000 /\ b_w1 (w_b w3) = 0).
Proof.
  pose (w := mklsw (b0 28 0 1) false (sw0 true) [] (mkshort None None None None None 0 0 0) 0 0 0 false 0 : lsw R).
  assert (H1 : exists w1, lsw_minor (set_override true 28 w) = Some w1 /\ w_sw w1 = sw0 false /\ w_loads w1 = [] /\ w_ground w1 = false).
  { unfold lsw_minor, lsw_update, set_override, w. cbn [w_ov w_sw w_loads loads_step w_b w_ground w_short w_ref w_v w_p w_ovv].
    change (sapply (sw0 true) (SCommand false)) with (@Build_sw R false false false 0 None None false 0 0 0 0 false true false false false false false 1%Z false 1 1 false 0 0 0 0).
    assert (SS : Trip.update_state true (@Build_sw R false false false 0 None None false 0 0 0 0 false true false false false false false 1%Z false 1 1 false 0 0 0 0) = sw0 false).
    { unfold Trip.update_state, sw0.
      cbn [s_fclosed s_fopen s_fres s_fpct s_mpos s_mneg s_ign s_cur s_sens s_volt s_power s_cmd s_closed s_pos s_neg s_ext s_wait s_just s_prio s_reset s_dres s_ares s_prot s_dpos s_apos s_dneg s_aneg s_tripped orb andb negb].
      change ((1:R) <=~ n0) with (Rleb 1 0). destruct (Rleb_spec 1 0); [lra|]. reflexivity. }
    rewrite SS. eexists. split; [reflexivity|]. unfold lsw_build. cbn [w_sw with_wb w_loads w_ground]. repeat split. }
  destruct H1 as (w1 & H1 & S1 & L1 & G1).
  assert (C0 : conductor (w_b (set_override true 28 w))) by (repeat split).
  destruct (C152_override _ w1 H1 eq_refl (or_introl C0)) as (_ & _ & A0 & A1 & A2 & A3 & W0 & W1 & _).
  assert (UP : b_upd (w_b w1) = true).
  { destruct (minor_build _ w1 H1) as (x & g & _ & -> & B & O & _). unfold lsw_build. rewrite O, B. cbn [set_override w_ov w_b with_wb with_src b_upd].
    unfold override_adm. change (b_a0 (w_b w) ==~ n0) with (Reqb 1 0). destruct (Reqb_spec 1 0); [lra|]. reflexivity. }
  (* an open switch without override keeps the matrix *)
  assert (STEP : forall x : lsw R, w_ov x = false -> w_sw x = sw0 false -> w_loads x = [] -> b_a0 (w_b x) = 0 -> b_a3 (w_b x) = 100000000 ->
    exists y, lsw_minor x = Some y /\ w_ov y = false /\ w_sw y = sw0 false /\ w_loads y = [] /\ b_a0 (w_b y) = 0 /\ b_a3 (w_b y) = 100000000 /\ b_w1 (w_b y) = 0).
  { intros x O S L Z0 Z3. unfold lsw_minor, lsw_update. rewrite O, S, L. cbn [length Nat.eqb negb andb]. rewrite sw0_state. change (s_closed (sw0 false)) with false. cbn [andb loads_step].
    eexists. split; [reflexivity|]. unfold lsw_build. cbn [w_ov w_b with_wb w_sw w_loads with_src b_a0 b_a3 b_w1 b_w0].
    rewrite limit_within by (rewrite climR; change (n0 : R) with 0; lra). rewrite climR.
    assert (GZ : within n0 (if b_malf (w_b x) then n0 *~ (n1 -~ b_malfv (w_b x)) else n0) 1000000000000000 = 0).
    { transitivity (within 0 0 1000000000000000); [f_equal; destruct (b_malf (w_b x)); rnum; lra|]. unfold within, Rmin, Rmax. destruct (Rle_dec _ _), (Rle_dec _ _); lra. }
    rewrite GZ. assert (SA : set_adm (w_b x) 0 = w_b x).
    { unfold set_adm. change (n0 <~ nabs (b_a0 (w_b x) -~ 0)) with (Rltb 0 (Rabs (b_a0 (w_b x) - 0))). rewrite Z0, Rminus_0_r, Rabs_R0. destruct (Rltb_spec 0 0); [lra|reflexivity]. }
    rewrite SA. repeat split; assumption. }
  destruct (STEP (set_override false 0 w1)) as (w2 & H2 & O2 & S2 & L2 & Z0 & Z3 & Z1); try assumption; try reflexivity.
  exists w, w1, w2. split; [repeat split|]. split; [reflexivity|]. split; [reflexivity|]. split; [exact H1|]. split; [exact H2|].
  split; [rewrite S2; reflexivity|]. split; [exact Z0|]. split; [exact Z3|]. split; [exact Z1|]. split; [exact UP|]. split.
  - intro p1. unfold lsw_flux. cbn [w_ov with_wb w_b]. rewrite O2. cbn [w_b with_wb with_flux b_flux]. unfold plain_flux.
    cbn [b_drop with_drop b_a0 with_pot]. rewrite Z0. destruct (_ <~ _); rnum; lra.
  - intros n. assert (INV : exists w3, Nat.iter n (fun x => match x with Some x => lsw_minor x | None => None end) (Some w2) = Some w3 /\
      w_ov w3 = false /\ w_sw w3 = sw0 false /\ w_loads w3 = [] /\ b_a0 (w_b w3) = 0 /\ b_a3 (w_b w3) = 100000000 /\ b_w1 (w_b w3) = 0).
    { induction n as [|n (w3 & I & O & S & L & I0 & I3 & I1)].
      - exists w2. split; [reflexivity|]. repeat split; assumption.
      - destruct (STEP w3 O S L I0 I3) as (y & Y & Y1). exists y. split; [|exact Y1].
        change (match Nat.iter n (fun x => match x with Some x => lsw_minor x | None => None end) (Some w2) with Some x => lsw_minor x | None => None end = Some y).
        rewrite I. exact Y. }
    destruct INV as (w3 & I & _ & _ & _ & I0 & I3 & I1). intros w4 E. rewrite I in E. injection E as <-. repeat split; assumption.
Qed.
Print Assumptions C152_conductor. Print Assumptions C152_override. Print Assumptions C152_release_refuted.
