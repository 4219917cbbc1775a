(** C153: the selector switch. *)
From Coq Require Import Floats.
From Coq Require Import Reals Lra Lia List Arith Bool ZArith.
From Verif Require Import Num Ord Loops MathUtil Props_Math BasicLinks Trip Spec_Valve Props_Valve Props_Thermal UserLoad Props_UserLoad Props_LoadSwitch.
Import ListNotations.
Local Open Scope R_scope.

Definition srun {T} {N : Num T} (l : list (sel_event T)) (e : sel T) : sel T := fold_left sel_apply l e.

(** ** The admittance flag, for any numbers *)
Section ANY.
Context {T : Type} {N : Num T}.
Lemma step_flag (e : sel T) : e_upd (sel_step e) = false ->
  e_upd e = false /\ (e_adm (sel_step e) = e_adm e \/ e_adm (sel_step e) = repeat n0 (e_n e * e_n e)).
Proof.
  unfold sel_step, sel_build. set (c := sel_clear _).
  destruct (n0 <~ nabs _); [discriminate|]. intro U. split; [exact U|].
  unfold c, sel_clear. cbn [e_adm with_e e_n e_last]. destruct (_ =? _)%Z; [left|right]; reflexivity.
Qed.
(** Between two polls of the solver, if the second answers no, the matrix is what it was at the first, or
    it is zero. *)
Theorem C153_flag : forall (e : sel T) l, let e0 := fst (sel_poll e) in let e' := srun l e0 in
  snd (sel_poll e') = false -> e_adm e' = e_adm e0 \/ e_adm e' = repeat n0 (e_n e0 * e_n e0).
Proof.
  intros e l e0 e'.
  assert (G : forall l x, e_n x = e_n e0 -> (e_upd x = false -> e_adm x = e_adm e0 \/ e_adm x = repeat n0 (e_n e0 * e_n e0)) ->
     e_upd (srun l x) = false -> e_adm (srun l x) = e_adm e0 \/ e_adm (srun l x) = repeat n0 (e_n e0 * e_n e0)).
  { clear l e'. induction l as [|ev l IH]; intros x Hn Hx; [exact Hx|]. cbn [srun fold_left]. apply IH.
    - rewrite <- Hn. destruct ev; try reflexivity. unfold sel_apply, sel_step, sel_build. destruct (n0 <~ _); reflexivity.
    - destruct ev; try exact Hx. unfold sel_apply. intro U. destruct (step_flag x U) as [U0 [->| ->]]; [apply Hx; exact U0|].
      right. rewrite Hn. reflexivity. }
  apply G; [reflexivity|]. intros _. left. reflexivity.
Qed.
End ANY.

(** ** The connection it makes *)
(** The admittance matrix of a conductor [g] between ports 0 and [c] of [n], nothing if [c] is 0. *)
Definition entry (g : R) (c i j : nat) : R :=
  if Nat.eqb c 0 then 0
  else if (Nat.eqb i 0 && Nat.eqb j 0) || (Nat.eqb i c && Nat.eqb j c) then g
  else if (Nat.eqb i 0 && Nat.eqb j c) || (Nat.eqb i c && Nat.eqb j 0) then - g
  else 0.
Definition connects (n : nat) (a : list R) (g : R) (c : nat) : Prop :=
  length a = (n * n)%nat /\ forall i j, (i < n)%nat -> (j < n)%nat -> nth (i * n + j) a 0 = entry g c i j.
Lemma set_nth_length (l : list R) : forall i x, length (set_nth l i x) = length l.
Proof. induction l as [|y l IH]; intros [|i] x; cbn; try reflexivity. rewrite IH. reflexivity. Qed.
Lemma set_nth_nth (l : list R) : forall i x k, (i < length l)%nat -> nth k (set_nth l i x) 0 = if Nat.eqb k i then x else nth k l 0.
Proof.
  induction l as [|y l IH]; intros i x k H; [cbn in H; lia|]. destruct i as [|i], k as [|k]; cbn [set_nth nth Nat.eqb]; try reflexivity.
  apply IH. cbn in H. lia.
Qed.
Lemma index_eq n i j i' j' : (j < n)%nat -> (j' < n)%nat -> Nat.eqb (i * n + j) (i' * n + j') = Nat.eqb i i' && Nat.eqb j j'.
Proof.
  intros A B. destruct (Nat.eqb_spec (i * n + j) (i' * n + j')) as [E|E], (Nat.eqb_spec i i') as [Q|Q], (Nat.eqb_spec j j') as [P|P]; cbn; try reflexivity; try (subst; lia).
  - exfalso. assert (i = i'); [|contradiction]. apply (f_equal (fun x => (x / n)%nat)) in E.
    rewrite !Nat.div_add_l, !Nat.div_small in E by lia. lia.
  - exfalso. assert (i = i'); [|contradiction]. apply (f_equal (fun x => (x / n)%nat)) in E.
    rewrite !Nat.div_add_l, !Nat.div_small in E by lia. lia.
Qed.
Lemma zero_connects n g : connects n (repeat 0 (n * n)) g 0.
Proof. split; [apply repeat_length|]. intros i j I J. unfold entry. cbn [Nat.eqb]. apply nth_repeat. Qed.
Lemma zero_any n c : connects n (repeat 0 (n * n)) 0 c.
Proof.
  split; [apply repeat_length|]. intros i j I J. unfold entry. rewrite nth_repeat.
  destruct (Nat.eqb c 0); [reflexivity|]. destruct (_ || _); [reflexivity|]. destruct (_ || _); lra.
Qed.
Lemma write_connects n a g c g0 : (0 < c < n)%nat -> connects n a g0 c ->
  connects n (set_nth (set_nth (set_nth (set_nth a 0 g) c (- g)) (c * n) (- g)) (c * n + c) g) g c.
Proof.
  intros C [L A]. split; [rewrite !set_nth_length; exact L|]. intros i j I J.
  assert (X : (c * n + c < n * n)%nat) by nia.
  rewrite !set_nth_nth by (rewrite ?set_nth_length, L; nia). rewrite A by assumption.
  replace (c * n)%nat with (c * n + 0)%nat by lia. replace (c * n + 0 + c)%nat with (c * n + c)%nat by lia.
  rewrite (index_eq n i j c c) by lia. rewrite (index_eq n i j c 0) by lia.
  replace (Nat.eqb (i * n + j) c) with (Nat.eqb i 0 && Nat.eqb j c) by (rewrite <- (index_eq n i j 0 c) by lia; f_equal; lia).
  replace (Nat.eqb (i * n + j) 0) with (Nat.eqb i 0 && Nat.eqb j 0) by (rewrite <- (index_eq n i j 0 0) by lia; f_equal; lia).
  unfold entry. destruct (Nat.eqb_spec c 0); [lia|].
  destruct (Nat.eqb_spec i c), (Nat.eqb_spec j c), (Nat.eqb_spec i 0), (Nat.eqb_spec j 0); subst; try lia; cbn; reflexivity.
Qed.
(** What is true of a selector at all times: its matrix is that of the port it last stepped with. *)
Definition shaped (e : sel R) : Prop :=
  (2 <= e_n e)%nat /\ exists g c, connects (e_n e) (e_adm e) g c /\ (c < e_n e)%nat /\
    ((e_last e = -1)%Z /\ e_adm e = repeat 0 (e_n e * e_n e) \/ e_last e = Z.of_nat c).
Lemma connected_lt (e : sel R) : (2 <= e_n e)%nat -> (connected e < e_n e)%nat.
Proof. intro H. unfold connected. destruct (Z.ltb_spec (e_sel e) 1), (Z.leb_spec (Z.of_nat (e_n e)) (e_sel e)); cbn [orb]; lia. Qed.
Lemma step_shaped (e : sel R) : shaped e -> let e' := sel_step e in let c := connected e in
  shaped e' /\ e_n e' = e_n e /\ connects (e_n e) (e_adm e') (if Nat.eqb c 0 then 0 else sel_eff e) c.
Proof.
  intros (N2 & g & c & A & C & LA). cbv zeta. unfold sel_step.
  set (x := with_e e (sel_eff e) (e_last e) (e_adm e) (e_upd e)).
  assert (Cx : connected x = connected e) by reflexivity.
  pose proof (connected_lt e N2) as CL. set (c' := connected e) in *.
  assert (K : exists g1, connects (e_n e) (e_adm (sel_clear x)) g1 c' /\ e_last (sel_clear x) = Z.of_nat c' /\ connected (sel_clear x) = c' /\ e_eff (sel_clear x) = sel_eff e /\ e_n (sel_clear x) = e_n e).
  { unfold sel_clear. rewrite Cx. cbn [e_adm with_e e_last e_eff e_n connected e_sel]. fold c'. destruct (Z.eqb_spec (Z.of_nat c') (e_last x)) as [E|E].
    - exists g. change (e_last x) with (e_last e) in E. destruct LA as [[LA _]|LA]; [lia|]. assert (c' = c) as -> by lia. repeat split; try assumption; try apply A.
    - exists 0. split; [apply zero_any|repeat split]. }
  destruct K as (g1 & A1 & L1 & C1 & E1 & N1). set (y := sel_clear x) in *. clearbody y.
  assert (F : exists g2, connects (e_n e) (e_adm (sel_build y)) g2 c' /\ g2 = (if Nat.eqb c' 0 then 0 else sel_eff e) /\ e_last (sel_build y) = Z.of_nat c' /\ e_n (sel_build y) = e_n e).
  { unfold sel_build. rewrite C1, E1.
    assert (A00 : nth 0 (e_adm y) 0 = entry g1 c' 0 0) by (replace 0%nat with (0 * e_n e + 0)%nat at 1 by lia; apply A1; lia).
    change (nth 0 (e_adm y) n0) with (nth 0 (e_adm y) 0). rewrite A00, N1.
    destruct (Nat.eqb_spec c' 0) as [Z|Z].
    - rewrite Z in *. cbn [Nat.ltb Nat.leb]. unfold entry. cbn [Nat.eqb].
      change (n0 <~ nabs (0 -~ n0)) with (Rltb 0 (Rabs (0 - 0))). rewrite Rminus_0_r, Rabs_R0. destruct (Rltb_spec 0 0); [lra|].
      exists 0. split; [|repeat split; assumption]. destruct A1 as [B1 B2]. split; [exact B1|]. intros i j I J. rewrite B2 by assumption. reflexivity.
    - assert (E0 : entry g1 c' 0 0 = g1) by (unfold entry; destruct (Nat.eqb_spec c' 0); [contradiction|reflexivity]). rewrite E0.
      destruct (Nat.ltb_spec 0 c'); [|lia]. change (n0 <~ nabs (g1 -~ sel_eff e)) with (Rltb 0 (Rabs (g1 - sel_eff e))).
      exists (sel_eff e). destruct (Rltb_spec 0 (Rabs (g1 - sel_eff e))) as [D|D].
      + cbn [e_adm with_e e_last e_n]. split; [|repeat split; assumption]. apply (write_connects (e_n e) (e_adm y) (sel_eff e) c' g1); [lia|exact A1].
      + assert (g1 = sel_eff e) as <-. { destruct (Req_dec g1 (sel_eff e)) as [Q|Q]; [exact Q|]. exfalso. apply D, Rabs_pos_lt. lra. }
        split; [exact A1|]. repeat split; assumption. }
  destruct F as (g2 & A2 & -> & L2 & N2'). split; [|split; [exact N2'|exact A2]].
  unfold shaped. rewrite N2'. split; [exact N2|]. eexists. exists c'. split; [exact A2|]. split; [exact CL|right; exact L2].
Qed.
Lemma run_shaped l : forall e : sel R, shaped e -> shaped (srun l e) /\ e_n (srun l e) = e_n e.
Proof.
  induction l as [|ev l IH]; intros e H; [split; [exact H|reflexivity]|]. cbn [srun fold_left].
  assert (X : shaped (sel_apply e ev) /\ e_n (sel_apply e ev) = e_n e).
  { destruct ev; try (split; [exact H|reflexivity]). destruct (step_shaped e H) as (A & B & _). split; assumption. }
  destruct X as [X1 X2]. destruct (IH _ X1) as [Y1 Y2]. split; [exact Y1|]. rewrite <- X2. exact Y2.
Qed.
Lemma init_shaped n def s (e : sel R) : sel_init n def s = Some e -> shaped e /\ e_n e = n.
Proof.
  unfold sel_init. destruct (Nat.ltb_spec n 2); [discriminate|]. cbn [orb]. destruct (def <~ n0); [discriminate|]. destruct (_ || _); [discriminate|].
  injection 1 as <-. split; [|reflexivity]. split; [cbn; lia|]. exists 0, 0%nat. cbn [e_n e_adm e_last]. split; [apply zero_connects|]. split; [lia|]. left. split; reflexivity.
Qed.
(** After a step the link connects port 0 and the selected port with the effective conductance, and no
    others; a selection out of range connects nothing.  All call sequences. *)
Theorem C153_connects : forall n def s (e : sel R) l, sel_init n def s = Some e ->
  let x := srun l e in let e' := srun (l ++ [EStep]) e in
  e_n e' = n /\ connects n (e_adm e') (sel_eff x) (connected x) /\
  (connected x <> 0%nat <-> (0 < e_sel x < Z.of_nat n)%Z) /\ (connected x <> 0%nat -> Z.of_nat (connected x) = e_sel x).
Proof.
  intros n def s e l I. destruct (init_shaped n def s e I) as [S N]. cbv zeta. unfold srun. rewrite fold_left_app. cbn [fold_left sel_apply].
  fold (srun l e). destruct (run_shaped l e S) as [S1 N1]. destruct (step_shaped _ S1) as (_ & N2 & A). rewrite N2, N1, N in *.
  split; [reflexivity|]. split; [|].
  - destruct A as [A1 A2]. split; [exact A1|]. intros i j Hi Hj. rewrite A2 by assumption. unfold entry. destruct (Nat.eqb (connected (srun l e)) 0); reflexivity.
  - unfold connected. rewrite N1. destruct (Z.ltb_spec (e_sel (srun l e)) 1), (Z.leb_spec (Z.of_nat n) (e_sel (srun l e))); cbn [orb]; split; lia.
Qed.
(** The effective conductance: what the blockage leaves, zero when tiny, at most 1e15. *)
Theorem C153_conductance : forall e : sel R, 0 <= e_def e ->
  let g := e_def e * (if e_malf e then within 0 (1 - e_malfv e) 1 else 1) in
  sel_eff e = (if Rlt_dec g (100 * Reps) then 0 else Rmin g 1000000000000000) /\ 0 <= sel_eff e <= 1000000000000000.
Proof.
  intros e D g. assert (E : sel_eff e = if Rltb g (100 * Reps) then 0 else Rmin g 1000000000000000).
  { unfold sel_eff. rewrite limit_within by (rnum; lra). rewrite eps100R, nminR, climR.
    assert (Q : (if e_malf e then e_def e *~ within n0 (n1 -~ e_malfv e) n1 else e_def e) = g) by (unfold g; destruct (e_malf e); [reflexivity|rnum; lra]).
    rewrite Q. reflexivity. }
  pose proof Reps_pos as EP. rewrite E. destruct (Rltb_spec g (100 * Reps)), (Rlt_dec g (100 * Reps)); try lra; (split; [reflexivity|]); try lra;
  unfold Rmin; destruct (Rle_dec g 1000000000000000); lra.
Qed.
(** Flux after a step: Ohm's law on the connected port, none when disconnected. *)
Theorem C153_flux : forall n def s (e : sel R) l p, sel_init n def s = Some e -> length p = n ->
  let x := srun l e in let e' := srun (l ++ [EStep; EPot p; EFlows]) e in let c := connected x in
  let drop := nth 0 p 0 - nth c p 0 in
  (c = 0%nat -> e_flux e' = 0) /\
  (c <> 0%nat -> Rmax (nth 0 p 0) (nth c p 0) * (100 * Reps) <= Rabs drop -> e_flux e' = drop * sel_eff x).
Proof.
  intros n def s e l p I L. destruct (init_shaped n def s e I) as [S N]. cbv zeta. unfold srun. rewrite fold_left_app. cbn [fold_left].
  fold (srun l e). destruct (run_shaped l e S) as [S1 N1]. destruct (step_shaped _ S1) as (_ & N2 & A).
  set (x := srun l e) in *. clearbody x. cbn [sel_apply]. unfold sel_flows. cbn [connected e_sel e_n e_pot e_adm e_flux].
  assert (CE : connected (mksel (e_n (sel_step x)) (e_def (sel_step x)) (e_sel (sel_step x)) (e_eff (sel_step x)) (e_last (sel_step x)) (e_adm (sel_step x)) (e_upd (sel_step x)) (e_malf (sel_step x)) (e_malfv (sel_step x)) p (e_drop (sel_step x)) (e_flux (sel_step x))) = connected x).
  { unfold sel_step, sel_build. destruct (n0 <~ _); reflexivity. }
  rewrite CE. set (c := connected x) in *.
  assert (A0 : nth 0 (e_adm (sel_step x)) n0 = if Nat.eqb c 0 then 0 else sel_eff x).
  { change n0 with 0. replace 0%nat with (0 * e_n x + 0)%nat at 1 by lia. destruct A as [_ A]. destruct S1 as [S1 _]. rewrite A by lia. unfold entry. destruct (Nat.eqb c 0); reflexivity. }
  rewrite A0, nmaxR, eps100R. change (nth c p n0) with (nth c p 0). change (nth 0 p n0) with (nth 0 p 0).
  change (nth 0 p 0 -~ nth c p 0) with (nth 0 p 0 - nth c p 0).
  split.
  - intro Z. rewrite Z. cbn [Nat.eqb]. destruct (_ <~ _); [reflexivity|]. rnum. lra.
  - intros Z D. destruct (Nat.eqb_spec c 0); [contradiction|].
    change (nabs (nth 0 p 0 - nth c p 0) <~ Rmax (nth 0 p 0) (nth c p 0) *~ (100 * Reps)) with (Rltb (Rabs (nth 0 p 0 - nth c p 0)) (Rmax (nth 0 p 0) (nth c p 0) * (100 * Reps))).
    destruct (Rltb_spec (Rabs (nth 0 p 0 - nth c p 0)) (Rmax (nth 0 p 0) (nth c p 0) * (100 * Reps))); [lra|reflexivity].
Qed.
(** Disconnecting: the matrix becomes zero and the solver is not told, so that it goes on with the old
    one; the link reports no flux. *)
Theorem C153_disconnect_refuted : exists (e0 : sel R) e1 e2, sel_init 3 1 1 = Some e0 /\
  e1 = fst (sel_poll (srun [EStep] e0)) /\ snd (sel_poll (srun [EStep] e0)) = true /\
  e2 = srun [ESelect 0; EStep] e1 /\ snd (sel_poll e2) = false /\
  nth 0 (e_adm e1) 0 = 1 /\ nth 0 (e_adm e2) 0 = 0 /\ (forall l, e_flux (srun [EPot l; EFlows] e2) = 0).
Proof.
  pose proof Reps_small as ES.
  assert (I : exists e0, sel_init 3 (1:R) 1 = Some e0 /\ e_upd e0 = false /\ e_def e0 = 1 /\ e_malf e0 = false /\ e_sel e0 = 1%Z /\ e_last e0 = (-1)%Z /\ e_adm e0 = repeat 0 9).
  { unfold sel_init. cbn [Nat.ltb Nat.leb orb]. change ((1:R) <~ n0) with (Rltb 1 0). destruct (Rltb_spec 1 0); [lra|]. cbn [orb Z.ltb Z.compare Z.of_nat Pos.of_succ_nat Pos.succ Z.sub Z.add Z.opp Z.pos_sub Pos.pred_double Pos.compare Pos.compare_cont].
    eexists. split; [reflexivity|]. cbn [e_upd e_def e_malf e_sel e_last e_adm]. repeat split. }
  destruct I as (e0 & I & U & D & M & Sl & La & Ad).
  destruct (init_shaped 3 1 1 e0 I) as [SH N].
  exists e0. eexists. eexists. split; [exact I|]. split; [reflexivity|].
  assert (EF : sel_eff e0 = 1).
  { destruct (C153_conductance e0 ltac:(rewrite D; lra)) as [-> _]. rewrite M, D. destruct (Rlt_dec _ _); [lra|]. rewrite Rmin_left; lra. }
  assert (CN : connected e0 = 1%nat) by (unfold connected; rewrite Sl, N; reflexivity).
  destruct (step_shaped e0 SH) as (SH1 & N1 & A1). rewrite CN, EF, N in A1. cbn [Nat.eqb] in A1.
  assert (A10 : nth 0 (e_adm (sel_step e0)) 0 = 1) by (destruct A1 as [_ A1]; apply (A1 0%nat 0%nat); lia).
  assert (U1 : e_upd (sel_step e0) = true).
  { destruct (e_upd (sel_step e0)) eqn:Q; [reflexivity|]. destruct (step_flag e0 Q) as [_ [W|W]].
    - rewrite W, Ad in A10. cbn in A10. lra.
    - rewrite W, N in A10. cbn in A10. lra. }
  change (srun [EStep] e0) with (sel_step e0). split; [exact U1|]. split; [reflexivity|].
  set (e1 := sel_apply (fst (sel_poll (sel_step e0))) (ESelect 0)).
  change (srun [ESelect 0; EStep] (fst (sel_poll (sel_step e0)))) with (sel_step e1).
  assert (SH1' : shaped e1) by exact SH1. assert (C1 : connected e1 = 0%nat) by reflexivity.
  destruct (step_shaped e1 SH1') as (SH2 & N2 & A2). rewrite C1 in A2. cbn [Nat.eqb] in A2.
  assert (A20 : nth 0 (e_adm (sel_step e1)) 0 = 0) by (destruct A2 as [_ A2]; change (e_n e1) with (e_n (sel_step e0)) in A2; rewrite N1, N in A2; change 0%nat with (0 * 3 + 0)%nat at 1; rewrite (A2 0%nat 0%nat) by lia; reflexivity).
  split; [|split; [exact A10|split; [exact A20|]]].
  - assert (L1 : e_last (sel_step e0) = 1%Z).
    { unfold sel_step, sel_build. set (y := sel_clear _). assert (e_last y = 1%Z) by (unfold y, sel_clear; cbn [e_last with_e]; change (connected (with_e _ _ _ _ _)) with (connected e0); rewrite CN; reflexivity). destruct (n0 <~ _); assumption. }
    unfold sel_poll. cbn [snd]. unfold sel_step, sel_build. set (y := sel_clear _).
    assert (Y : connected y = 0%nat) by reflexivity. rewrite Y. cbn [Nat.ltb Nat.leb].
    assert (YA : e_adm y = repeat n0 (e_n e1 * e_n e1)).
    { unfold y, sel_clear. cbn [e_adm with_e e_last e_n]. change (connected (with_e _ _ _ _ _)) with (connected e1). rewrite C1. change (e_last e1) with (e_last (sel_step e0)). rewrite L1. reflexivity. }
    rewrite YA, nth_repeat. change (n0 <~ nabs (n0 -~ n0)) with (Rltb 0 (Rabs (0 - 0))). rewrite Rminus_0_r, Rabs_R0. destruct (Rltb_spec 0 0); [lra|]. reflexivity.
  - intro p. cbn [srun fold_left sel_apply]. unfold sel_flows. cbn [e_flux e_adm e_pot]. change (nth 0 (e_adm (sel_step e1)) n0) with (nth 0 (e_adm (sel_step e1)) 0).
    rewrite A20. destruct (_ <~ _); [reflexivity|]. rnum. lra.
Qed.
(** Selecting between the step and the flows sends the flux to a port the solution did not connect. *)
Theorem C153_moved_refuted : exists (e0 : sel R) p, sel_init 3 1 1 = Some e0 /\
  let e := srun [EStep] e0 in let e' := srun [ESelect 2; EPot p; EFlows] e in
  connected e' = 2%nat /\ e_flux e' = 7 /\ nth 8 (e_adm e) 0 = 0 /\ nth 0 p 0 - nth 1 p 0 = 1.
Proof.
  pose proof Reps_small as ES. pose proof Reps_pos as EP.
  assert (I : exists e0, sel_init 3 (1:R) 1 = Some e0 /\ e_def e0 = 1 /\ e_malf e0 = false /\ e_sel e0 = 1%Z).
  { unfold sel_init. cbn [Nat.ltb Nat.leb orb]. change ((1:R) <~ n0) with (Rltb 1 0). destruct (Rltb_spec 1 0); [lra|]. cbn [orb Z.ltb Z.compare Z.of_nat Pos.of_succ_nat Pos.succ Z.sub Z.add Z.opp Z.pos_sub Pos.pred_double Pos.compare Pos.compare_cont].
    eexists. split; [reflexivity|]. cbn [e_def e_malf e_sel]. repeat split. }
  destruct I as (e0 & I & D & M & Sl). exists e0, [8; 7; 1]. split; [exact I|]. cbv zeta.
  destruct (init_shaped 3 1 1 e0 I) as [SH N].
  assert (EF : sel_eff e0 = 1).
  { destruct (C153_conductance e0 ltac:(rewrite D; lra)) as [-> _]. rewrite M, D. destruct (Rlt_dec _ _); [lra|]. rewrite Rmin_left; lra. }
  assert (CN : connected e0 = 1%nat) by (unfold connected; rewrite Sl, N; reflexivity).
  destruct (step_shaped e0 SH) as (SH1 & N1 & A1). rewrite CN, EF, N in A1. cbn [Nat.eqb] in A1. destruct A1 as [_ A1].
  change (srun [EStep] e0) with (sel_step e0). cbn [srun fold_left sel_apply]. unfold sel_flows.
  assert (CC : forall (a b : R) c d f g h i j k, connected (mksel (e_n (sel_step e0)) a 2 b c d f g h i j k) = 2%nat) by (intros; unfold connected; cbn [e_sel e_n]; rewrite N1, N; reflexivity).
  cbn [e_flux e_n e_sel e_pot e_adm]. rewrite !CC. split; [reflexivity|]. split; [|split; [apply (A1 2%nat 2%nat); lia|cbn; lra]].
  change (nth 0 (e_adm (sel_step e0)) n0) with (nth (0 * 3 + 0) (e_adm (sel_step e0)) 0). rewrite (A1 0%nat 0%nat) by lia. cbn [nth]. rewrite nmaxR, eps100R.
  change (entry 1 1 0 0) with 1. change (nabs (8 -~ 1) <~ Rmax 8 1 *~ (100 * Reps)) with (Rltb (Rabs (8 - 1)) (Rmax 8 1 * (100 * Reps))).
  rewrite Rmax_left, Rabs_pos_eq by lra. destruct (Rltb_spec (8 - 1) (8 * (100 * Reps))); [lra|]. rnum. lra.
Qed.
Print Assumptions C153_flag. Print Assumptions C153_connects. Print Assumptions C153_conductance. Print Assumptions C153_flux.
Print Assumptions C153_disconnect_refuted. Print Assumptions C153_moved_refuted.
