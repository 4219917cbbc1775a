(** C225: fires in fluid nodes. *)
From Coq Require Import Floats.
From Coq Require Import Reals Lra Lia List Arith Bool ZArith.
From Verif Require Import Num Ord MathUtil Props_Math FluidFlow Props_FluidFlow Spec_Valve Props_Valve Props_Detector FluidFan Props_FluidFan FireSource.
Import ListNotations.

(** ** How long it burns *)
Section BURN.
Context {T : Type} {N : Num T}.
(** There is oxygen enough at the step and at the transport. *)
Definition enough (k : firec T) (u : pass T) : Prop := (p_pp u <~ k_min k) = false /\ (k_min k <~ p_pp2 u) = true.
Lemma rates_on k heat (s : fire T) : f_on (fire_rates k heat s) = f_on s.
Proof. unfold fire_rates. destruct (f_on s) eqn:E; [reflexivity|exact E]. Qed.
Lemma step_on k heat pp block (s : fire T) : f_on (fire_step k heat pp block s) = if pp <~ k_min k then false else f_on s.
Proof. unfold fire_step. destruct block; cbn [f_on]; rewrite rates_on; reflexivity. Qed.
Lemma pass_on k w s u : f_on (fire_pass k w s u) = true <-> enough k u /\ (p_cmd u = Some true \/ p_cmd u = None /\ f_on s = true).
Proof.
  unfold fire_pass, fire_transport, enough. cbn [fst]. unfold fire_fluid. rewrite step_on.
  assert (C : f_on (command (p_cmd u) s) = true <-> p_cmd u = Some true \/ p_cmd u = None /\ f_on s = true).
  { unfold command. destruct (p_cmd u) as [[]|]; cbn [f_on]; intuition congruence. }
  rewrite <- C. destruct (p_pp u <~ k_min k), (k_min k <~ p_pp2 u), (f_on (command (p_cmd u) s)); cbn; intuition congruence.
Qed.
(** It burns exactly if it was lit and since then never reset and never short of oxygen. *)
Theorem C225_burns : forall (k : firec T) w us s, f_on (fire_run k w us s) = true <->
  exists old new, us = old ++ new /\ Forall (enough k) new /\
  ((old = [] /\ f_on s = true /\ Forall (fun u => p_cmd u <> Some false) new) \/
   exists u r, new = u :: r /\ p_cmd u = Some true /\ Forall (fun u => p_cmd u <> Some false) r).
Proof.
  intros k w us s. induction us as [|u us IH] using rev_ind.
  - split.
    + intro H. exists [], []. repeat split; auto.
    + intros (old & new & E & F & D). symmetry in E. apply app_eq_nil in E. destruct E as [-> ->]. destruct D as [(_ & D & _)|(u & r & D & _)]; [exact D|discriminate D].
  - unfold fire_run in *. rewrite fold_left_app. cbn [fold_left]. rewrite pass_on. split.
    + intros [F D]. destruct D as [D|[D1 D2]].
      * exists us, [u]. split; [reflexivity|]. split; [auto|]. right. exists u, []. auto.
      * apply IH in D2. destruct D2 as (old & new & -> & G & X). exists old, (new ++ [u]). rewrite app_assoc. split; [reflexivity|].
        split; [apply Forall_app; auto|]. assert (Y : Forall (fun u => p_cmd u <> Some false) [u]) by (constructor; [congruence|constructor]).
        destruct X as [(X1 & X2 & X3)|(v & r & -> & X2 & X3)]; [left|right].
        -- repeat split; auto. apply Forall_app. auto.
        -- exists v, (r ++ [u]). repeat split; auto. apply Forall_app. auto.
    + intros (old & new & E & F & D). destruct new as [|n new _] using rev_ind.
      * rewrite app_nil_r in E. destruct D as [(-> & _)|(v & r & D & _)]; [destruct us; discriminate E|discriminate D].
      * rewrite app_assoc in E. apply app_inj_tail in E. destruct E as [-> <-]. apply Forall_app in F. destruct F as [F G]. inversion_clear G. split; [assumption|].
        destruct D as [(-> & D1 & D2)|(v & r & D1 & D2 & D3)].
        -- apply Forall_app in D2. destruct D2 as [D2 D3]. inversion_clear D3. destruct (p_cmd u) as [[]|] eqn:C; [now left|congruence|right]. split; [reflexivity|]. apply IH. exists [], new. repeat split; auto.
        -- destruct new as [|v' new']; cbn in D1; injection D1 as <- <-.
           ++ now left.
           ++ apply Forall_app in D3. destruct D3 as [D3 D4]. inversion_clear D4. destruct (p_cmd u) as [[]|] eqn:C; [now left|congruence|right]. split; [reflexivity|].
              apply IH. exists old, (v' :: new'). repeat split; auto. right. exists v', new'. auto.
Qed.
(** When it does not burn, nothing flows and no heat is made. *)
Theorem C225_out : forall (k : firec T) w s u, f_on (fire_pass k w s u) = false ->
  f_flows (fire_pass k w s u) = mkg3 n0 n0 n0 /\ f_rate (fire_pass k w s u) = n0 /\ f_power (fire_pass k w s u) = n0 /\
  Forall (fun r => r = n0) (f_tc (fire_pass k w s u)).
Proof.
  intros k w s u. unfold fire_pass, fire_transport. cbn [fst]. unfold fire_fluid. destruct (_ && _); [discriminate|]. intros _. cbn. repeat split. apply Forall_forall. intros x I. apply in_map_iff in I. destruct I as (y & <- & _). reflexivity.
Qed.
End BURN.
Print Assumptions C225_burns.
Print Assumptions C225_out.
Local Open Scope R_scope.

(** ** What it takes and gives *)
Definition lim100 : R := ndec 100 0 *~ neps.
Lemma lim100_big : neps < lim100 < 1 / 10.
Proof. unfold lim100. cbn [ndec nmul RNum]. unfold Rdec. cbn [Z.leb Z.compare]. change (neps : R) with Reps. pose proof Reps_pos. pose proof Reps_small. change (100 * 10 ^ 0)%Z with 100%Z. lra. Qed.
Definition part (block : option R) : R := match block with Some b => 1 - b | None => 1 end.
(** In a pass with a burning fire the node gets the configured masses per heat, less the blocked part: carbon
    dioxide and water, and loses oxygen.  Heat is that of the fire. *)
Theorem C225_balance : forall (k : firec R) w heat pp pp2 block s,
  f_on s = true -> k_min k <= pp -> k_min k < pp2 -> lim100 < Rabs ((k_co2 k - k_o2 k + k_h2o k) * heat * part block) ->
  let '(_, given, q) := fire_transport k w heat pp2 (fire_step k heat pp block s) in
  species given = mkg3 (- (k_o2 k * heat * part block)) (k_co2 k * heat * part block) (k_h2o k * heat * part block) /\ q = heat.
Proof.
  intros k w heat pp pp2 block s O P P2 L. pose proof lim100_big as [LB _]. pose proof neps_pos as NP. unfold fire_transport.
  assert (ON : f_on (fire_step k heat pp block s) = true). { rewrite step_on. assert (X : (pp <~ k_min k) = false) by (now apply ltN). now rewrite X. }
  unfold fire_fluid. rewrite ON. assert (X2 : (k_min k <~ pp2) = true) by (now apply ltI). rewrite X2. cbn [andb f_rate f_power].
  set (x := part block) in *.
  assert (FL : f_flows (fire_step k heat pp block s) = mkg3 (- (k_o2 k * heat * x)) (k_co2 k * heat * x) (k_h2o k * heat * x) /\ f_rate (fire_step k heat pp block s) = (k_co2 k - k_o2 k + k_h2o k) * heat * x).
  { unfold fire_step, fire_rates, x. cbn [f_on]. assert (X : (pp <~ k_min k) = false) by (now apply ltN). rewrite X, O.
    destruct block as [b|]; cbn [f_flows f_rate g_o2 g_co2 g_h2o part nadd nsub nmul nopp n0 n1 RNum]; split; try (f_equal; ring); ring. }
  destruct FL as [FL FR]. rewrite FR. set (m := (k_co2 k - k_o2 k + k_h2o k) * heat * x) in *.
  assert (G : (ndec 100 0 *~ neps <~ m) || (m <~ nopp (ndec 100 0 *~ neps)) = true).
  { fold lim100. unfold Rabs in L. destruct (Rcase_abs m) in L; apply orb_true_iff; [right|left]; apply ltI; cbn [nopp RNum]; lra. }
  rewrite G. split; [|reflexivity]. cbn [species f_fluid update_mass i_m i_mass]. rewrite FL. cbn [g_o2 g_co2 g_h2o nadd n0 RNum].
  replace (0 + - (k_o2 k * heat * x) + k_co2 k * heat * x + k_h2o k * heat * x) with m by (unfold m; ring).
  assert (E : inner_limit (nopp neps) m neps = m).
  { apply (proj1 (proj2 (C65_inner_limit_outside (nopp neps : R) m neps))). apply andb_false_iff. unfold Rabs in L. destruct (Rcase_abs m) in L; [left|right]; apply ltN; cbn [nopp RNum]; lra. }
  rewrite E. cbn [nmul ndiv RNum]. assert (m <> 0). { intro Q. rewrite Q, Rabs_R0 in L. lra. }
  f_equal; field; assumption.
Qed.
Print Assumptions C225_balance.
(** The flow in the solution, in moles, is that of the internal fluid's last mixture. *)
Theorem C225_flux : forall (k : firec R) heat pp block (s : fire R), let s' := fire_step k heat pp block s in
  (neps < i_mw (f_fluid s) -> f_flux s' * i_mw (f_fluid s) = f_rate s') /\ (i_mw (f_fluid s) <= neps -> f_flux s' = 0).
Proof.
  intros k heat pp block s. cbv zeta. pose proof neps_pos as NP.
  assert (E : f_flux (fire_step k heat pp block s) = if neps <~ i_mw (f_fluid s) then f_rate (fire_step k heat pp block s) /~ i_mw (f_fluid s) else n0).
  { unfold fire_step, fire_rates. cbn [f_on f_flows f_rate f_fluid]. destruct (if pp <~ k_min k then false else f_on s), block; reflexivity. }
  rewrite E. split; intro H.
  - assert (X : (neps <~ i_mw (f_fluid s)) = true) by (now apply ltI). rewrite X. cbn [ndiv RNum]. set (eps := neps : R) in *. clearbody eps. field. lra.
  - assert (X : (neps <~ i_mw (f_fluid s)) = false) by (now apply ltN). rewrite X. reflexivity.
Qed.
Print Assumptions C225_flux.

(** ** Refutations *)
Definition fire0 : fire R := mkfire true (mkg3 0 0 0) 0 [0] (mkifl (mkg3 0 1 0) 1 44 [0]) 0 0.
(** Refuted: an accepted fire that burns exchanges oxygen for its products.  The check adds the rates with
    the wrong sign: a fire that gives as much mass as it takes passes, and exchanges nothing, though it heats. *)
Theorem C225_balanced_refuted : exists (k : firec R) heat pp w, fire_valid k = true /\ 0 < k_o2 k /\ 0 < k_co2 k /\ 0 < heat /\ k_min k < pp /\
  let '(s, given, q) := fire_transport k w heat pp (fire_step k heat pp None fire0) in
  f_on s = true /\ given = None /\ species given = mkg3 0 0 0 /\ q = heat.
Proof.
  exists (mkfc 2 (3/2) (1/2) 0 [1]), 1, 1, (mkg3 32 44 18). pose proof lim100_big as LB. pose proof neps_pos as NP. cbn [k_o2 k_co2 k_min].
  assert (V : fire_valid (mkfc 2 (3 / 2) (1 / 2) 0 [1]) = true).
  { unfold fire_valid. apply negb_true_iff, ltN. cbn [k_co2 k_h2o k_o2 nadd nabs RNum]. rewrite Rabs_right by lra. destruct LB. change (neps : R) with Reps. pose proof Reps_small. lra. }
  split; [exact V|]. do 4 (split; [lra|]).
  unfold fire_transport, fire_fluid, fire_step, fire_rates. cbn [f_on f_flows f_rate f_tc f_fluid k_min fire0].
  assert (X1 : ((1 : R) <~ 0) = false) by (apply ltN; lra). assert (X2 : ((0 : R) <~ 1) = true) by (apply ltI; lra). rewrite X1, X2. cbn [f_on f_rate f_flows andb k_co2 k_o2 k_h2o f_power].
  set (m := _ +~ _ +~ _ : R). assert (M : m = 0) by (unfold m; cbn [nadd nmul nopp RNum]; lra). rewrite M. fold lim100.
  assert (Y : (lim100 <~ 0) || (0 <~ nopp lim100) = false) by (apply orb_false_iff; split; apply ltN; cbn [nopp RNum]; lra). rewrite Y. auto.
Qed.
Print Assumptions C225_balanced_refuted.
(** A full blockage holds back all the masses, but not the heat nor the rates of trace compounds. *)
Theorem C225_blocked : forall (k : firec R) w heat pp pp2 s, f_on s = true -> k_min k <= pp -> k_min k < pp2 ->
  let '(s', given, q) := fire_transport k w heat pp2 (fire_step k heat pp (Some 1) s) in
  species given = mkg3 0 0 0 /\ q = heat /\ f_tc s' = map (fun r => r * heat) (k_tc k).
Proof.
  intros k w heat pp pp2 s O P P2. pose proof lim100_big as LB. pose proof neps_pos as NP. unfold fire_transport, fire_fluid, fire_step, fire_rates. cbn [f_on].
  assert (X : (pp <~ k_min k) = false) by (now apply ltN). assert (X2 : (k_min k <~ pp2) = true) by (now apply ltI). rewrite X, O, X2. cbn [f_on f_rate f_flows andb f_power f_tc].
  set (m := _ *~ (_ -~ _) : R). assert (M : m = 0) by (unfold m; cbn [nmul nsub n1 RNum]; ring). rewrite M. fold lim100.
  assert (Y : (lim100 <~ 0) || (0 <~ nopp lim100) = false) by (apply orb_false_iff; split; apply ltN; cbn [nopp RNum]; lra). rewrite Y. cbn [species n0 RNum]. auto.
Qed.
Print Assumptions C225_blocked.
(** Refuted: a blockage scales all that the fire gives alike. *)
Theorem C225_blocked_refuted : exists (k : firec R) w heat pp s, fire_valid k = true /\ f_on s = true /\ k_min k < pp /\
  let '(_, given, q) := fire_transport k w heat pp (fire_step k heat pp (Some 1) s) in
  species given = mkg3 0 0 0 /\ 0 < q.
Proof.
  exists (mkfc 1 3 2 10 []), (mkg3 32 44 18), 11, 20, fire0. split; [|split; [reflexivity|split; [cbn; lra|]]].
  - unfold fire_valid. apply negb_true_iff, ltN. cbn [k_co2 k_h2o k_o2 nadd nabs RNum]. rewrite Rabs_right by lra. change (neps : R) with Reps. pose proof Reps_small. lra.
  - pose proof (C225_blocked (mkfc 1 3 2 10 []) (mkg3 32 44 18) 11 20 20 fire0 eq_refl) as H. cbn [k_min] in H. specialize (H ltac:(lra) ltac:(lra)).
    destruct (fire_transport _ _ _ _ _) as [[s' g] q]. destruct H as (H1 & -> & _). split; [exact H1|lra].
Qed.
Print Assumptions C225_blocked_refuted.
(** Refuted: the flow in the solution is the flow that is added to the node.  In the pass in which the fire
    goes out the solution still has the flow of the pass before. *)
Theorem C225_last_refuted : exists (k : firec R) w heat pp s, f_on s = true /\ fire_valid k = true /\
  let s1 := fire_step k heat pp None s in let '(s2, given, q) := fire_transport k w heat pp s1 in
  f_on s2 = false /\ f_flux s1 = 1 /\ given = None /\ q = 0.
Proof.
  exists (mkfc 1 3 2 10 []), (mkg3 32 44 18), 11, 5, (mkfire true (mkg3 (-11) 33 22) 44 [] (mkifl (mkg3 (-11) 33 22) 44 44 []) 1 11).
  pose proof lim100_big as LB. pose proof neps_pos as NP. split; [reflexivity|]. split.
  { unfold fire_valid. apply negb_true_iff, ltN. cbn [k_co2 k_h2o k_o2 nadd nabs RNum]. rewrite Rabs_right by lra. change (neps : R) with Reps. pose proof Reps_small. lra. }
  cbv zeta. unfold fire_transport, fire_fluid, fire_step, fire_rates. cbn [f_on f_flows f_rate f_fluid i_mw k_min].
  assert (X1 : ((5 : R) <~ 10) = true) by (apply ltI; lra). rewrite X1. cbn [f_on f_flows f_rate f_fluid i_mw andb f_flux f_power].
  assert (X2 : (neps <~ 44) = true) by (apply ltI; change (neps : R) with Reps; pose proof Reps_small; lra). rewrite X2.
  cbn [n0 RNum]. fold lim100. assert (Y : (lim100 <~ 0) || (0 <~ nopp lim100) = false) by (apply orb_false_iff; split; apply ltN; cbn [nopp RNum]; lra). rewrite Y.
  repeat split. cbn [ndiv RNum]. lra.
Qed.
Print Assumptions C225_last_refuted.
(** The balance holds for a fire that is accepted. *)
Example C225_balance_ex : exists (k : firec R) heat pp, fire_valid k = true /\ k_min k < pp /\ lim100 < Rabs ((k_co2 k - k_o2 k + k_h2o k) * heat * part None).
Proof.
  exists (mkfc 1 3 2 10 []), 1, 20. pose proof lim100_big as LB. cbn [k_min k_co2 k_o2 k_h2o part]. split; [|split; [lra|rewrite Rabs_right; lra]].
  unfold fire_valid. apply negb_true_iff, ltN. cbn [k_co2 k_h2o k_o2 nadd nabs RNum]. rewrite Rabs_right by lra. change (neps : R) with Reps. pose proof Reps_small. lra.
Qed.
