(** C228: the power bus with a list of user loads. *)
From Coq Require Import Floats.
From Coq Require Import Reals Lra Lia List Arith Bool ZArith.
From Verif Require Import Num Ord Loops MathUtil Props_Math FluidFlow Props_FluidFlow Spec_Valve Props_Valve Props_Detector FluidFan Props_FluidFan BasicLinks Trip UserLoad PowerBus.
Import ListNotations.
Local Open Scope R_scope.

(** ** The admittance is flagged when it changes *)
(** The admittance is that of the active conductances and of the leak. *)
Definition built (b : pbus R) : Prop := b_adm b = b_res b + b_cpact b + bus_leak.
Lemma activate_R (a g : R) : fst (activate a g) = a /\ snd (activate a g) = false /\ Rabs (a - g) <= neps \/ fst (activate a g) = g /\ snd (activate a g) = true /\ neps < Rabs (a - g).
Proof.
  unfold activate. destruct (neps <~ nabs (a -~ g)) eqn:E; [right|left]; cbn [fst snd]; repeat split.
  - now apply ltI in E.
  - now apply ltN in E.
Qed.
Lemma step_built v s b b' u : pb_step v s b = Some (b', u) -> built b' /\ b_max b' = b_max b.
Proof.
  unfold pb_step. destruct (if s then _ else _) as [[[l g] p]|]; [|discriminate]. destruct (activate (b_res b) _) as [r u1]. destruct (activate (b_cpact b) _) as [c u2].
  intro H. injection H as <- _. unfold built. cbn [b_adm b_res b_cpact b_max nadd n0 RNum]. split; [replace (0 + r + c) with (r + c) by ring; reflexivity|reflexivity].
Qed.
Theorem C228_flag : forall v s (b b' : pbus R) u, built b -> pb_step v s b = Some (b', u) -> b_adm b' <> b_adm b -> u = true.
Proof.
  intros v s b b' u B H NE. pose proof (step_built _ _ _ _ _ H) as [B' _]. unfold built in *. unfold pb_step in H. destruct (if s then _ else _) as [[[l g] p]|]; [|discriminate].
  pose proof (activate_R (b_res b) (limited (b_max b) g)) as A1. destruct (activate (b_res b) _) as [r u1]. cbn [fst snd] in A1.
  set (cp := limited _ (if neps <~ v then _ else _)) in H. pose proof (activate_R (b_cpact b) cp) as A2. destruct (activate (b_cpact b) cp) as [c u2]. cbn [fst snd] in A2.
  injection H as <- <-. cbn [b_res b_cpact b_adm] in *. destruct A1 as [(A1 & -> & _)|(_ & -> & _)]; [|reflexivity]. destruct A2 as [(A2 & -> & _)|(_ & -> & _)]; [|reflexivity].
  exfalso. apply NE. rewrite B, B', A1, A2. reflexivity.
Qed.
Print Assumptions C228_flag.

(** ** What the bus draws *)
Definition most_R (m g : R) : R := if Rlt_dec m g then m else if Rlt_dec g min_cond then 0 else g.
Lemma limited_R m g : limited m g = most_R m g.
Proof. unfold limited, most_R. cbn [nlt n0 RNum]. destruct (Rltb_spec m g), (Rlt_dec m g); try reflexivity; try lra. destruct (Rltb_spec g min_cond), (Rlt_dec g min_cond); try reflexivity; lra. Qed.
(** Resistive loads count with their conductance if their resistance is sensible, the others with power. *)
Definition load_cond (d : load R) : R := if d_cp d then 0 else if (Rle_dec neps (d_r d)) then if Rle_dec (d_r d) (1 / min_cond) then 1 / d_r d else 0 else 0.
Definition load_power (d : load R) : R := if d_cp d then d_p d else 0.
Definition sumR (f : load R -> R) (l : list (load R)) : R := fold_right (fun d a => f d + a) 0 l.
Lemma loads_R v : forall l g p l' g' p', pb_loads v l g p = Some (l', g', p') ->
  Forall2 (fun d d' => load_step v d = Some d') l l' /\ g' = g + sumR load_cond l' /\ p' = p + sumR load_power l'.
Proof.
  induction l as [|d l IH]; intros g p l' g' p' H; cbn [pb_loads] in H.
  - injection H as <- <- <-. cbn. repeat split; try ring. constructor.
  - destruct (load_step v d) as [d'|] eqn:E; [|discriminate H].
    set (gp := if d_cp d' then (g, p +~ d_p d') else _) in H.
    assert (GP : gp = (g + load_cond d', p + load_power d')).
    { unfold gp, load_cond, load_power, is_in_range. destruct (d_cp d'); [cbn [nadd RNum]; f_equal; ring|]. cbn [nle RNum].
      destruct (Rleb_spec neps (d_r d')), (Rle_dec neps (d_r d')); cbn [andb]; try lra; try (f_equal; ring).
      cbn [ndiv n1 RNum]. destruct (Rleb_spec (d_r d') (1 / min_cond)), (Rle_dec (d_r d') (1 / min_cond)); try lra; cbn [nadd RNum]; f_equal; ring. }
    rewrite GP in H. destruct (pb_loads v l _ _) as [[[r g1] p1]|] eqn:E2; [|discriminate H]. injection H as <- <- <-.
    apply IH in E2. destruct E2 as (A & B & C). split; [constructor; assumption|]. unfold sumR in *. cbn [fold_right]. rewrite B, C. split; ring.
Qed.
(** In a step with voltage the bus draws, up to the tolerance of the conductances, the power of its constant
    power loads and that of its resistances, each group cut to the allowed conductance, and that of the leak. *)
Theorem C228_power : forall v (b b' : pbus R) u, neps < v -> pb_step v false b = Some (b', u) ->
  Forall2 (fun d d' => load_step v d = Some d') (b_loads b) (b_loads b') /\
  Rabs (pb_power v b' - (most_R (b_max b) (sumR load_cond (b_loads b')) * (v * v) + most_R (b_max b) (sumR load_power (b_loads b') / (v * v)) * (v * v) + bus_leak * (v * v)))
    <= 2 * neps * (v * v).
Proof.
  intros v b b' u V H. pose proof neps_pos as NP. pose proof (step_built _ _ _ _ _ H) as [B' _]. unfold built in B'. unfold pb_step in H.
  destruct (pb_loads v (b_loads b) n0 n0) as [[[l g] p]|] eqn:E; [|discriminate]. apply loads_R in E. destruct E as (F & G & P). change (n0 : R) with 0 in G, P. rewrite Rplus_0_l in G, P.
  assert (X : (neps <~ v) = true) by (now apply ltI). rewrite X in H.
  pose proof (activate_R (b_res b) (limited (b_max b) g)) as A1. destruct (activate (b_res b) _) as [r u1]. cbn [fst snd] in A1.
  set (cp := limited _ (p /~ _)) in H. pose proof (activate_R (b_cpact b) cp) as A2. destruct (activate (b_cpact b) cp) as [c u2]. cbn [fst snd] in A2.
  injection H as <- _. cbn [b_res b_cpact b_loads] in *. split; [exact F|].
  unfold pb_power, pb_flux. cbn [nmul RNum]. rewrite B'. rewrite <- G, <- P. unfold cp in A2. cbn [ndiv nmul RNum] in A2. rewrite limited_R in A1, A2.
  set (x := most_R (b_max b) g) in *. set (y := most_R (b_max b) (p / (v * v))) in *. set (eps := neps : R) in *. set (k := bus_leak : R). clearbody x y eps k.
  assert (C1 : Rabs (r - x) <= eps). { destruct A1 as [(-> & _ & A)|(-> & _ & A)]; [exact A|]. rewrite Rminus_diag_eq, Rabs_R0; lra. }
  assert (C2 : Rabs (c - y) <= eps). { destruct A2 as [(-> & _ & A)|(-> & _ & A)]; [exact A|]. rewrite Rminus_diag_eq, Rabs_R0; lra. }
  replace ((r + c + k) * v * v - (x * (v * v) + y * (v * v) + k * (v * v))) with ((r - x + (c - y)) * (v * v)) by ring.
  rewrite Rabs_mult. rewrite (Rabs_right (v * v)) by (apply Rle_ge, Rle_0_sqr). apply Rmult_le_compat_r; [apply Rle_0_sqr|].
  eapply Rle_trans; [apply Rabs_triang|]. lra.
Qed.
Print Assumptions C228_power.
(** A sealed bus with voltage has only the leak, up to the tolerance; its loads are left as they are. *)
Theorem C228_sealed : forall v (b b' : pbus R) u, neps < v -> 0 <= b_max b -> pb_step v true b = Some (b', u) -> b_loads b' = b_loads b /\ Rabs (b_adm b' - bus_leak) <= 2 * neps.
Proof.
  intros v b b' u V M H. pose proof neps_pos as NP. pose proof (step_built _ _ _ _ _ H) as [B' _]. unfold built in B'. unfold pb_step in H.
  assert (X : (neps <~ v) = true) by (now apply ltI). rewrite X in H. cbn [ndiv nmul n0 RNum] in H. unfold Rdiv in H. rewrite Rmult_0_l in H.
  assert (Z : limited (b_max b) 0 = 0). { rewrite limited_R. unfold most_R. destruct (Rlt_dec (b_max b) 0); [lra|]. destruct (Rlt_dec 0 min_cond); reflexivity. }
  rewrite Z in H.
  pose proof (activate_R (b_res b) 0) as A1. destruct (activate (b_res b) _) as [r u1]. pose proof (activate_R (b_cpact b) 0) as A2. destruct (activate (b_cpact b) _) as [c u2]. cbn [fst snd] in *.
  injection H as <- _. cbn [b_res b_cpact b_loads b_adm] in *. split; [reflexivity|]. rewrite B'. set (eps := neps : R) in *. set (k := bus_leak : R). clearbody eps k.
  assert (C1 : Rabs r <= eps). { destruct A1 as [(-> & _ & A)|(-> & _ & A)]; [now rewrite Rminus_0_r in A|]. rewrite Rabs_R0. lra. }
  assert (C2 : Rabs c <= eps). { destruct A2 as [(-> & _ & A)|(-> & _ & A)]; [now rewrite Rminus_0_r in A|]. rewrite Rabs_R0. lra. }
  replace (r + c + k - k) with (r + c) by ring. eapply Rle_trans; [apply Rabs_triang|]. lra.
Qed.
Print Assumptions C228_sealed.
(** After any steps each group's conductance is within the allowed one. *)
Definition inside (b : pbus R) : Prop := b_res b <= b_max b /\ b_cp b <= b_max b /\ b_cpact b <= b_max b.
Theorem C228_bounded : forall us (b b' : pbus R), 0 <= b_max b -> inside b -> pb_run us b = Some b' -> inside b' /\ b_max b' = b_max b.
Proof.
  induction us as [|[v s] us IH]; intros b b' M I H; cbn [pb_run] in H; [injection H as <-; auto|].
  destruct (pb_step v s b) as [[b1 u]|] eqn:E; [|discriminate]. pose proof (step_built _ _ _ _ _ E) as [_ M1].
  assert (I1 : inside b1); [|destruct (IH b1 b' ltac:(lra) I1 H) as [X1 X2]; split; [exact X1|congruence]].
  assert (LE : forall g, limited (b_max b) g <= b_max b). { intro g. rewrite limited_R. unfold most_R. destruct (Rlt_dec (b_max b) g); [lra|]. destruct (Rlt_dec g min_cond); lra. }
  unfold pb_step in E. destruct (if s then _ else _) as [[[l g] p]|]; [|discriminate].
  pose proof (activate_R (b_res b) (limited (b_max b) g)) as A1. destruct (activate (b_res b) _) as [r u1]. cbn [fst snd] in A1. pose proof (LE g) as L1.
  set (z := if neps <~ v then _ else _) in E. pose proof (LE z) as L2. pose proof (activate_R (b_cpact b) (limited (b_max b) z)) as A2. destruct (activate (b_cpact b) _) as [c u2]. cbn [fst snd] in A2.
  injection E as <- _. destruct I as (I1 & I2 & I3). unfold inside. cbn [b_res b_cp b_cpact b_max].
  refine (conj _ (conj L2 _)); [destruct A1 as [(-> & _)|(-> & _)]; assumption|destruct A2 as [(-> & _)|(-> & _)]; assumption].
Qed.
Print Assumptions C228_bounded.
Theorem C228_init : forall least most l (b : pbus R), pb_init least most l = Some b <-> l <> [] /\ 0 < most /\ b = mkpb most l 0 0 0 0.
Proof.
  intros least most l b. unfold pb_init. split.
  - destruct l as [|d l]; [discriminate|]. cbn [orb]. destruct (most <=~ n0) eqn:E; [discriminate|]. apply leN in E. intro H. injection H as <-. repeat split; [discriminate|exact E].
  - intros (A & B & ->). destruct l as [|d l]; [congruence|]. cbn [orb]. assert (X : (most <=~ n0) = false) by (now apply leN). rewrite X. reflexivity.
Qed.
Print Assumptions C228_init.

(** ** Refutations *)
Definition cp100 : load float := mkload true 100%float 0%float 50%float 0%float On None None false None false 100%float true 0%float 0%float 1e8%float.
(** Refuted: the configured least conductance is obeyed. *)
Theorem C228_least_refuted : exists (least : float) l b b' u, (0 <~ least)%float = true /\ pb_init least 10%float l = Some b /\
  pb_step 100%float false b = Some (b', u) /\ (0%float <~ b_cp b') = true /\ (b_cp b' <~ least) = true.
Proof.
  exists 1%float, [cp100]. eexists. eexists. eexists. split; [vm_compute; reflexivity|]. split; [vm_compute; reflexivity|]. split; [vm_compute; reflexivity|]. split; vm_compute; reflexivity.
Qed.
Print Assumptions C228_least_refuted.
(** Refuted: a load below its under-voltage limit does not load the bus.  Without voltage the bus keeps the
    conductance of its constant power loads, even sealed. *)
Theorem C228_dead_refuted : exists (b b1 b2 b3 : pbus float) u1 u2 u3, pb_init 0%float 10%float [cp100] = Some b /\
  pb_step 100%float false b = Some (b1, u1) /\ pb_step 0%float false b1 = Some (b2, u2) /\ pb_step 0%float true b2 = Some (b3, u3) /\
  forallb (fun d => negb (d_valid d)) (b_loads b2) = true /\ b_cpact b2 = b_cpact b1 /\ b_cpact b3 = b_cpact b1 /\ (0%float <~ b_cpact b1) = true.
Proof. do 7 eexists. split; [vm_compute; reflexivity|]. split; [vm_compute; reflexivity|]. split; [vm_compute; reflexivity|]. split; [vm_compute; reflexivity|]. vm_compute. auto. Qed.
Print Assumptions C228_dead_refuted.
