(** C95-C97: the flow controller, solvability of networks of basic links and the
    external demand filter. *)
From Coq Require Import Floats.
From Coq Require Import Reals Lra Lia List Arith Bool ZArith Permutation Psatz.
From Verif Require Import Num Loops Ord Round MathUtil Links Spec_Ldu Ldu LduFacts LduDom IslandSolve Spec_Assembly Assembly
  BasicLinks Spec_BasicLinks Props_Network Props_Math Props_Pid Props_BasicLinks Props_BasicFlow.
Import ListNotations.
Local Open Scope R_scope.

(** ** C95 Flow controller *)

(** The command in force. *)
Definition command (l : law (T := R)) : R :=
  match l with Controller malf mval cmd _ => if malf then mval else cmd | _ => 0 end.
Definition reversible (l : law (T := R)) : bool :=
  match l with Controller _ _ _ r => r | _ => false end.
Definition is_controller (l : law (T := R)) : Prop :=
  match l with Controller _ _ _ _ => True | _ => False end.
Definition blockage (b : base (T := R)) : R := if b_malf b then b_malfv b else 0.

Lemma limit_R g : limit_range n0 g conductance_limit =
  if Rltb (10 ^ 15) g then 10 ^ 15 else if Rltb g 0 then 0 else g.
Proof.
  unfold limit_range, nmax, nmin. rewrite limit_value. rnum.
  assert (0 < 10 ^ 15) by (apply pow_lt; lra).
  destruct (Rltb_spec (10 ^ 15) g); [|reflexivity]. rewrite Rltb_false by lra. reflexivity.
Qed.

(** The conductance a controller takes. *)
Lemma controller_adm (c : cond (T := R)) dt : square (c_b c) -> is_controller (c_law c) ->
  let d := b_p0 (c_b c) - b_p1 (c_b c) in
  let eff := if (Rltb (b_p0 (c_b c)) (b_p1 (c_b c)) && negb (reversible (c_law c)))%bool then 0
             else Rmin (c_def c) (Rabs (command (c_law c)) / Rmax Reps (Rabs d)) in
  b_a0 (c_b (cond_step dt c)) = limit_range n0 (eff * (1 - blockage (c_b c))) conductance_limit /\
  b_p0 (c_b (cond_step dt c)) = b_p0 (c_b c) /\ b_p1 (c_b (cond_step dt c)) = b_p1 (c_b c) /\
  c_law (cond_step dt c) = c_law c.
Proof.
  intros Sq K. cbv zeta. unfold cond_step, update_state, blockage, command, reversible.
  destruct (c_law c) as [|m mv cm rv| |]; try contradiction. cbv zeta.
  set (g := limit_range n0 _ conductance_limit).
  destruct (set_adm_R (c_b c) g Sq) as (_ & A & P0 & P1 & _). cbn [c_b c_law].
  rewrite A, P0, P1. repeat split; auto. unfold g. f_equal.
  assert (E : controller_eff (c_b c) (c_def c) m mv cm rv =
    (if (Rltb (b_p0 (c_b c)) (b_p1 (c_b c)) && negb rv)%bool then 0
     else Rmin (c_def c) (Rabs (if m then mv else cm) / Rmax Reps (Rabs (b_p0 (c_b c) - b_p1 (c_b c)))))).
  { unfold controller_eff. cbv zeta. rewrite nmax_R. rnum.
    replace (nmin (c_def c) (Rabs (if m then mv else cm) / Rmax Reps (Rabs (b_p0 (c_b c) - b_p1 (c_b c)))))
      with (Rmin (c_def c) (Rabs (if m then mv else cm) / Rmax Reps (Rabs (b_p0 (c_b c) - b_p1 (c_b c))))).
    - reflexivity.
    - unfold nmin, Rmin. rnum. destruct (Rle_dec _ _), (Rltb_spec (Rabs (if m then mv else cm) / Rmax Reps (Rabs (b_p0 (c_b c) - b_p1 (c_b c)))) (c_def c)); lra. }
  rewrite E. rnum. destruct (b_malf (c_b c)); [reflexivity|]. ring.
Qed.

Lemma cond_flux (c : cond (T := R)) : plain_like (Cond c) = true ->
  let d := b_p0 (c_b c) - b_p1 (c_b c) in
  flux_of (flows (Cond c)) =
  if Rltb (Rabs d) (Rmax (b_p0 (c_b c)) (b_p1 (c_b c)) * (100 * Reps)) then 0 else d * b_a0 (c_b c).
Proof.
  intros P. cbv zeta. cbn [plain_like] in P. unfold flux_of. cbn [flows bbase].
  unfold cond_flows, with_base. cbn [c_b].
  assert (F : flux_dead (with_drop (c_b c) (delta (c_b c))) =
    if Rltb (Rabs (b_p0 (c_b c) - b_p1 (c_b c))) (Rmax (b_p0 (c_b c)) (b_p1 (c_b c)) * (100 * Reps)) then 0
    else (b_p0 (c_b c) - b_p1 (c_b c)) * b_a0 (c_b c)).
  { unfold flux_dead, with_drop, delta, eps100. cbn [b_drop b_p0 b_p1 b_a0]. rewrite nmax_R. rnum. reflexivity. }
  destruct (c_law c); try discriminate P; exact F.
Qed.

(** With the potentials the controller saw, the flux it lets through is at most
    the command, flows down the potential, not backwards unless that is enabled,
    and meets the command when the default conductivity allows it. *)
Theorem C95_controller (c : cond (T := R)) dt : reach (Cond c) -> is_controller (c_law c) ->
  0 <= blockage (c_b c) <= 1 ->
  let f := flux_of (flows (step dt (Cond c))) in
  let d := b_p0 (c_b c) - b_p1 (c_b c) in
  let u := Rabs (command (c_law c)) in
  Rabs f <= u /\ 0 <= f * d /\
  (d < 0 -> reversible (c_law c) = false -> f = 0) /\
  (blockage (c_b c) = 0 -> Reps <= Rabs d -> (0 < d \/ reversible (c_law c) = true) ->
   Rmax (b_p0 (c_b c)) (b_p1 (c_b c)) * (100 * Reps) <= Rabs d ->
   u <= c_def c * Rabs d -> u <= 10 ^ 15 * Rabs d -> Rabs f = u).
Proof.
  intros Rl K Hb. pose proof (shape_pre _ (reach_shape _ Rl)) as (Sq & _). cbn [bbase] in Sq.
  destruct (controller_adm c dt Sq K) as (A & P0 & P1 & L). cbv zeta in A |- *.
  cbn [step].
  assert (Pl : plain_like (Cond (cond_step dt c)) = true).
  { cbn [plain_like]. rewrite L. destruct (c_law c); try contradiction; reflexivity. }
  rewrite (cond_flux _ Pl), P0, P1.
  rewrite A, limit_R. clear A Pl.
  set (u := Rabs (command (c_law c))). set (rv := reversible (c_law c)).
  set (x := b_p0 (c_b c)). set (y := b_p1 (c_b c)). set (m := blockage (c_b c)) in *.
  set (G := c_def c).
  assert (Hu : 0 <= u) by apply Rabs_pos. clearbody u rv x y m G.
  pose proof Reps_pos as Ep. assert (P15 : 0 < 10 ^ 15) by (apply pow_lt; lra).
  set (dd := Rmax Reps (Rabs (x - y))).
  assert (Hdd : Rabs (x - y) <= dd /\ Reps <= dd) by (split; [apply Rmax_r | apply Rmax_l]).
  set (eff := if (Rltb x y && negb rv)%bool then 0 else Rmin G (u / dd)).
  set (g := if Rltb (10 ^ 15) (eff * (1 - m)) then 10 ^ 15 else if Rltb (eff * (1 - m)) 0 then 0 else eff * (1 - m)).
  assert (Hq : 0 <= u / dd) by (apply Rmult_le_pos; [lra|apply Rlt_le, Rinv_0_lt_compat; lra]).
  assert (Heff : eff <= u / dd).
  { unfold eff. destruct (Rltb x y && negb rv)%bool; [exact Hq|apply Rmin_r]. }
  assert (Hg : 0 <= g <= u / dd).
  { unfold g. destruct (Rltb_spec (10 ^ 15) (eff * (1 - m))) as [H1|H1];
      [|destruct (Rltb_spec (eff * (1 - m)) 0) as [H2|H2]]; split; try lra; nra. }
  assert (Hgd : g * Rabs (x - y) <= u).
  { apply Rle_trans with (u / dd * dd); [|right; field; lra].
    apply Rmult_le_compat; try lra. apply Rabs_pos. }
  assert (H0 : x - y < 0 -> rv = false -> g = 0).
  { intros Hd Hr. unfold g, eff. rewrite (Rltb_true x y) by lra. rewrite Hr. cbn [andb negb].
    rewrite Rmult_0_l. rewrite Rltb_false by lra. rewrite Rltb_false by lra. reflexivity. }
  destruct (Rltb_spec (Rabs (x - y)) (Rmax x y * (100 * Reps))) as [Hs|Hs].
  - rewrite Rabs_R0. repeat split; try lra.
  - repeat split.
    + rewrite Rabs_mult, (Rabs_right g) by lra. lra.
    + replace ((x - y) * g * (x - y)) with ((x - y) * (x - y) * g) by ring.
      apply Rmult_le_pos; [apply Rle_0_sqr|lra].
    + intros Hd Hr. rewrite (H0 Hd Hr). ring.
    + intros Hm Hd Hdir _ HG H15. rewrite Rabs_mult, (Rabs_right g) by lra.
      assert (Edd : dd = Rabs (x - y)) by (unfold dd; apply Rmax_right; lra).
      assert (Ee : eff = u / dd).
      { unfold eff. assert (Hc : (Rltb x y && negb rv)%bool = false).
        { destruct Hdir as [Hp| ->]; [rewrite Rltb_false by lra; reflexivity|apply andb_false_r]. }
        rewrite Hc. apply Rmin_right. rewrite Edd. apply Rmult_le_reg_r with (Rabs (x - y)); [lra|].
        unfold Rdiv. rewrite Rmult_assoc, Rinv_l by lra. lra. }
      assert (Eg : g = u / dd).
      { unfold g. rewrite Ee, Hm, Rminus_0_r, Rmult_1_r.
        rewrite Rltb_false; [rewrite Rltb_false by lra; reflexivity|].
        rewrite Edd. apply Rmult_le_reg_r with (Rabs (x - y)); [lra|].
        unfold Rdiv. rewrite Rmult_assoc, Rinv_l by lra. lra. }
      rewrite Eg, Edd. field. lra.
Qed.
Print Assumptions C95_controller.

(** When the potentials change after the step, as they do in a network solved
    once per major step, the flux can exceed the command without limit. *)
Theorem C95_command_exceeded_refuted : forall K, 0 < K ->
  exists (c : cond (T := R)) dt x y, reach (Cond c) /\ is_controller (c_law c) /\
  blockage (c_b c) = 0 /\ command (c_law c) = 1 /\
  flux_of (flows (placed x y (step dt (Cond c)))) = 1 + K.
Proof.
  intros K HK.
  set (c := mkcond (with_pot blank 1 0) (10 ^ 15) (10 ^ 15) n0 (Controller false 0 1 false)).
  exists c, 1, (1 + K), 0.
  assert (Rc : reach (Cond c)) by (apply r_new; repeat split).
  split; [exact Rc|]. repeat split.
  pose proof (shape_pre _ (reach_shape _ Rc)) as (Sq & _). cbn [bbase] in Sq.
  destruct (controller_adm c 1 Sq I) as (A & P0 & P1 & L). cbv zeta in A.
  unfold placed. cbn [step set_base bbase].
  assert (Pl : plain_like (Cond (with_base (cond_step 1 c) (with_pot (c_b (cond_step 1 c)) (1 + K) 0))) = true).
  { cbn [plain_like with_base c_law]. rewrite L. reflexivity. }
  rewrite (cond_flux _ Pl). cbn [with_base c_b with_pot b_p0 b_p1 b_a0]. rewrite A, limit_R.
  unfold blockage. cbn [c c_b with_pot b_p0 b_p1 b_malf blank c_law reversible command c_def].
  pose proof Reps_pos as Ep. assert (P15 : 1 <= 10 ^ 15) by apply one_g.
  assert (E2 : Reps <= 1 / 1000).
  { unfold Reps. apply Rmult_le_reg_r with (IZR (2 ^ 52)); [apply IZR_lt; reflexivity|].
    rewrite Rinv_l by (apply not_0_IZR; discriminate). change (IZR (2 ^ 52)) with 4503599627370496. lra. }
  rewrite (Rltb_false 1 0) by lra. cbn [andb].
  replace (1 - 0) with 1 by ring. rewrite Rabs_R1. rewrite (Rmax_right Reps 1) by lra.
  replace (1 / 1) with 1 by field. rewrite (Rmin_right (10 ^ 15) 1) by lra.
  rewrite (Rltb_false (10 ^ 15)) by lra. rewrite (Rltb_false (1 * 1) 0) by lra.
  rewrite (Rabs_right (1 + K - 0)) by lra. rewrite (Rmax_left (1 + K) 0) by lra.
  rewrite Rltb_false; [ring|]. nra.
Qed.
Print Assumptions C95_command_exceeded_refuted.

(** ** C96 Networks of basic links always solve *)

Lemma link_passive n (w : wired (T := R)) : square (bbase (w_link w)) -> 0 <= b_a0 (bbase (w_link w)) ->
  on_network n w -> passive n (fun i j => contrib (shown n w) (fidx n i j)).
Proof.
  intros Sq Ha O.
  assert (C : forall i j, (i < n)%nat -> (j < n)%nat -> contrib (shown n w) (fidx n i j) =
    let x := w_n0 w in let y := w_n1 w in let a := b_a0 (bbase (w_link w)) in
    let e u v := (Z.eqb u (Z.of_nat i) && Z.eqb v (Z.of_nat j))%bool in
    when (e x x) a - when (e x y) a - when (e y x) a + when (e y y) a).
  { intros i j Hi Hj. cbv zeta. unfold contrib, shown. cbn [lk_msize lk_map lk_adm rsum sel4].
    destruct Sq as (-> & -> & ->). destruct O as (O0 & O1).
    assert (E : forall u v, (0 <= u <= Z.of_nat n)%Z -> (0 <= v <= Z.of_nat n)%Z ->
      Z.eqb (corner (Z.of_nat n) u v) (fidx n i j) = (Z.eqb u (Z.of_nat i) && Z.eqb v (Z.of_nat j))%bool).
    { intros u v Hu Hv. unfold corner, fidx.
      destruct (Z.eqb_spec u (Z.of_nat i)) as [->|Hui]; destruct (Z.eqb_spec v (Z.of_nat j)) as [->|Hvj]; cbn [andb];
        destruct (Z.eqb_spec (Z.of_nat i) (Z.of_nat n)); destruct (Z.eqb_spec (Z.of_nat j) (Z.of_nat n));
        try destruct (Z.eqb_spec u (Z.of_nat n)); try destruct (Z.eqb_spec v (Z.of_nat n)); cbn [orb];
        match goal with |- Z.eqb ?a ?b = _ => destruct (Z.eqb_spec a b) end; try reflexivity; exfalso; nia. }
    rewrite !E by assumption. unfold when.
    repeat match goal with |- context [if ?t then _ else _] => destruct t end; ring. }
  split; [|split].
  - intros i j Hi Hj. rewrite !C by assumption. cbv zeta.
    unfold when. rewrite !(andb_comm (Z.eqb _ (Z.of_nat j))).
    repeat match goal with |- context [if ?t then _ else _] => destruct t end; ring.
  - intros i j Hi Hj Hne. rewrite C by assumption. cbv zeta. unfold when.
    assert (D : forall u, (Z.eqb u (Z.of_nat i) && Z.eqb u (Z.of_nat j))%bool = false).
    { intros u. destruct (Z.eqb_spec u (Z.of_nat i)), (Z.eqb_spec u (Z.of_nat j)); auto. lia. }
    rewrite !D. repeat match goal with |- context [if ?t then _ else _] => destruct t end; lra.
  - intros i Hi. rewrite (rsum_ext n _ (fun j => contrib (shown n w) (fidx n i j) * 1)) by (intros; ring).
    pose proof (contrib_row n w (fun _ => 1) i Sq O Hi) as E. cbv beta in E. rewrite E. clear E.
    assert (Pp : forall k, port_pot n (fun _ => 1) k = when (Z.ltb k (Z.of_nat n)) 1) by reflexivity.
    rewrite !Pp. unfold when.
    destruct (Z.eqb_spec (w_n0 w) (Z.of_nat i)); destruct (Z.eqb_spec (w_n1 w) (Z.of_nat i));
      destruct (Z.ltb_spec (w_n0 w) (Z.of_nat n)); destruct (Z.ltb_spec (w_n1 w) (Z.of_nat n)); try lia; nra.
Qed.

(** Capacitances that are not negative. *)
Definition nonneg_cap (l : blink (T := R)) : Prop := 0 <= capacitance_of l.
Definition cap_ok (l : blink (T := R)) : Prop :=
  match l with Capacitor _ _ _ b => 0 <= b_a0 b | _ => True end.

(** The admittance of a capacitor within the major step is its capacitance over
    the step size. *)
Lemma built_cap (l : blink (T := R)) : built l -> nonneg_cap l -> 0 <= b_a0 (bbase l).
Proof.
  intros B. pose proof (reach_shape l (built_reach l B)) as Sh.
  destruct l as [c|s b|cap e v b].
  - intros _. apply Sh.
  - intros _. destruct Sh as (_ & _ & ->). lra.
  - unfold nonneg_cap, capacitance_of. cbn [bbase]. clear Sh.
    remember (Capacitor cap e v b) as l. revert cap e v b Heql.
    induction B as [dt l Rl|dt l B IH|x y l B IH|l B IH]; intros cap e v b E.
    + pose proof (shape_pre l (reach_shape l Rl)) as (Sq & _).
      destruct l as [c|s b0|cap0 e0 v0 b0]; try discriminate E. cbn [step] in E. cbn [bbase] in Sq.
      inversion E; subst. intros Hc. unfold build_capacitance. cbv zeta.
      set (a := if dt <~ neps then _ else _). destruct (set_adm_R b0 a Sq) as (_ & A & _).
      unfold with_src. cbn [b_a0]. rewrite A. unfold a. rnum. pose proof Reps_pos.
      destruct (Rltb_spec dt Reps).
      * apply Rmult_le_pos; [exact Hc|apply Rlt_le, Rinv_0_lt_compat; lra].
      * apply Rmult_le_pos; [exact Hc|apply Rlt_le, Rinv_0_lt_compat; lra].
    + destruct l as [c|s b0|cap0 e0 v0 b0]; cbn [minor_step] in E.
      * destruct (c_law c); discriminate E.
      * discriminate E.
      * now apply (IH cap e v b).
    + destruct l as [c|s b0|cap0 e0 v0 b0]; try discriminate E.
      unfold placed in E. cbn [set_base bbase] in E. inversion E; subst.
      exact (IH cap e v b0 eq_refl).
    + destruct l as [c|s b0|cap0 e0 v0 b0]; try discriminate E.
      unfold polled in E. cbn [set_base bbase need_update fst] in E. inversion E; subst.
      exact (IH cap e v b0 eq_refl).
Qed.

(** From the links to the flows: whatever the (unvalidated) conductances,
    blockages, sources and commands, a network whose capacitances are not
    negative decomposes and solves, and with the solution the net flux of every
    node is zero up to the residual of the solver, the leak of the conditioning
    and the dead band of the conductors. *)
Theorem C96_network_solves n (ws : list (wired (T := R))) A0 w0 y0 : (1 <= n)%nat ->
  (forall w, In w ws -> built (w_link w) /\ on_network n w /\ nonneg_cap (w_link w)) ->
  let A := view n (build_admittance n (map (shown n) ws) A0) in
  exists W M y s, build_source n (map (shown n) ws) w0 = Some W /\
    decompose n (condition n A) = inl M /\ solve M (fun i => W (Z.of_nat i)) y0 n = inl y /\
    snd (flow_pass (map (load n y) ws)) = Some s /\
    forall i, (i < n)%nat ->
      Rabs (net_flux s (Z.of_nat i)) <=
        tiny * (1 + rsum n (fun k => condition n A k k + 1)) * rsum n (fun c => Rabs (y c)) +
        leak (A i i) * Rabs (y i) + lsum (slack n y i) ws.
Proof.
  intros Hn Hw A.
  assert (B : forall w, In w ws -> built (w_link w)) by (intros; now apply Hw).
  assert (O : forall w, In w ws -> on_network n w) by (intros; now apply Hw).
  destruct (sources_of n ws w0 B O) as (W & HW & _).
  destruct (C53_passive_network_solves n (map (shown n) ws) A0 (fun i => W (Z.of_nat i)) y0 Hn) as (M & y & HM & _ & Hy & Hres).
  { intros l Hl. apply in_map_iff in Hl. destruct Hl as (w & <- & Hin).
    apply link_passive; auto.
    - apply (shape_pre (w_link w)), reach_shape, built_reach, B, Hin.
    - apply built_cap; [auto|apply Hw, Hin]. }
  destruct (C91_net_flux_is_residual n ws A0 w0 y B O) as (W' & s & HW' & Hs & Hnet).
  assert (W' = W) by congruence. subst W'.
  exists W, M, y, s. split; [exact HW|]. split; [exact HM|]. split; [exact Hy|]. split; [exact Hs|].
  intros i Hi. destruct (Hnet i Hi) as (Hb & _). cbv zeta in Hb. specialize (Hres i Hi). cbv zeta in Hres.
  fold A in Hb, Hres.
  destruct (condition_spec n A) as (C1 & C2).
  assert (Ec : mat_vec n (condition n A) y i = mat_vec n A y i + (condition n A i i - A i i) * y i).
  { unfold mat_vec. rewrite (rsum_extract n i (fun c => condition n A i c * y c)) by exact Hi.
    rewrite (rsum_extract n i (fun c => A i c * y c)) by exact Hi.
    rewrite (rsum_ext n (fun j => if Nat.eqb j i then 0 else condition n A i j * y j)
                        (fun j => if Nat.eqb j i then 0 else A i j * y j)); [ring|].
    intros j Hj. destruct (Nat.eqb_spec j i); [reflexivity|]. rewrite C1 by lia. reflexivity. }
  assert (Hl : Rabs ((condition n A i i - A i i) * y i) <= leak (A i i) * Rabs (y i)).
  { rewrite Rabs_mult. apply Rmult_le_compat_r; [apply Rabs_pos|]. rewrite (C2 i Hi).
    destruct (leak_bounds (A i i)) as (_ & Lp).
    destruct (Rltb _ _).
    - replace (A i i + leak (A i i) - A i i) with (leak (A i i)) by ring. rewrite Rabs_right; lra.
    - replace (A i i - A i i) with 0 by ring. rewrite Rabs_R0. lra. }
  set (q := net_flux s (Z.of_nat i)) in *. set (r := mat_vec n A y i) in *.
  set (z := (condition n A i i - A i i) * y i) in *. set (b := W (Z.of_nat i)) in *.
  rewrite Ec in Hres.
  replace q with ((q - (b - r)) + (- (r + z - b) + z)) by ring.
  eapply Rle_trans; [apply Rabs_triang|].
  pose proof (Rabs_triang (- (r + z - b)) z) as T. rewrite Rabs_Ropp in T. lra.
Qed.
Print Assumptions C96_network_solves.

Example C96_ok : forall w, In w leaky -> built (w_link w) /\ on_network 2 w /\ nonneg_cap (w_link w).
Proof.
  destruct leaky_ok as (B & O). intros w Hw. split; [now apply B|]. split; [now apply O|].
  destruct Hw as [<-|[<-|[<-|[]]]]; unfold nonneg_cap, capacitance_of; cbn; lra.
Qed.

(** The capacitance is only validated at initialization: after setCapacitance or
    editCapacitance with a negative value the network does not decompose. *)
Theorem C96_capacitance_refuted : exists l : blink (T := R), reach l /\
  let w := mkwired (step 1 l) 1 2 in
  built (w_link w) /\ on_network 2 w /\
  exists e, decompose 2 (condition 2 (view 2 (build_admittance 2 (map (shown 2) [w]) (fun _ => 0)))) = inr e.
Proof.
  exists (Capacitor 1 true (-1) blank).
  assert (Rl : reach (Capacitor 1 true (-1) (blank (T := R)))).
  { apply r_set with (capacitor 1); [apply capacitor_reach|]. split; [repeat split|exact I]. }
  split; [exact Rl|]. cbv zeta. split; [apply bu_step, Rl|]. split; [unfold on_network; cbn; lia|].
  set (l := step 1 (Capacitor 1 true (-1) blank)).
  assert (E1 : Reps < 1).
  { unfold Reps. apply Rmult_lt_reg_r with (IZR (2 ^ 52)); [apply IZR_lt; reflexivity|].
    rewrite Rinv_l by (apply not_0_IZR; discriminate). rewrite Rmult_1_l. apply IZR_lt. reflexivity. }
  assert (Hb : b_a0 (bbase l) = -1 /\ b_a1 (bbase l) = 1 /\ b_a2 (bbase l) = 1 /\ b_a3 (bbase l) = -1).
  { unfold l. cbn [step bbase]. unfold build_capacitance. cbv zeta.
    set (a := if 1 <~ neps then _ else _).
    assert (Sq : square (blank (T := R))) by (unfold square, blank; cbn; rnum; lra).
    destruct (set_adm_R blank a Sq) as ((Q1 & Q2 & Q3) & A & _). unfold with_src. cbn [b_a0 b_a1 b_a2 b_a3].
    rewrite Q1, Q2, Q3, A. assert (Ea : a = -1) by (unfold a; rnum; rewrite Rltb_false by lra; field).
    rewrite Ea. lra. }
  set (A := view 2 _).
  assert (HA : A 0%nat 0%nat = 0 /\ A 0%nat 1%nat = 0 /\ A 1%nat 0%nat = 0 /\ A 1%nat 1%nat = -1).
  { destruct Hb as (H0 & H1 & H2 & H3).
    unfold A, view. rewrite !(build_admittance_sum 2) by (cbn; lia). cbn [map lsum].
    unfold contrib, shown. cbn [lk_msize lk_map lk_adm rsum sel4 w_link w_n0 w_n1].
    rewrite H0, H1, H2, H3. unfold corner, when. cbn. rnum. repeat split; ring. }
  destruct HA as (H0 & H1 & H2 & H3). clearbody A. clear Hb.
  destruct (condition_spec 2 A) as (C1 & C2).
  pose proof (C2 1%nat ltac:(lia)) as HC. cbn [rsum] in HC. rewrite H2, H3 in HC.
  rewrite Rltb_false in HC by (replace (0 + 0 + -1) with (-1) by ring; rewrite Rabs_left by lra; lra).
  pose proof (C1 1%nat 0%nat ltac:(lia)) as HC0. rewrite H2 in HC0. clear C1 C2.
  set (D := condition 2 A) in *. clearbody D.
  pose proof (decompose_ent 2 D ltac:(lia)) as HD.
  destruct (decompose 2 D) as [M|e]; [|eauto]. exfalso.
  destruct HD as (_ & HD). specialize (HD 1%nat ltac:(lia)).
  assert (Hs : ent D 1 1 = -1) by (unfold ent; cbn; rewrite HC0, flushR_0, HC; lra).
  lra.
Qed.
Print Assumptions C96_capacitance_refuted.

Example C95_ok : reach (Cond (mkcond (with_pot (blank (T := R)) 1 0) (10 ^ 15) (10 ^ 15) n0 (Controller false 0 1 false))).
Proof. apply r_new; repeat split. Qed.

(** ** C97 The capacitance estimate of the external demand *)

(** One step of the link with the flux and the supply potential it is given. *)
Definition fed {T} `{Num T} (flux sp : T) (c : cond) : cond :=
  mkcond (with_flux (c_b c) flux) (c_def c) (c_eff c) (c_sys c)
    match c_law c with Demand _ f => Demand sp f | l => l end.
Fixpoint fed_run (dt f : R) (sp : nat -> R) (k : nat) (c : cond) : cond :=
  match k with O => c | S k => cond_step dt (fed f (sp k) (fed_run dt f sp k c)) end.
Definition estimate {T} `{Num T} (c : cond) : T := match c_law c with Demand _ f => f_cap f | _ => n0 end.
Definition filter_of {T} `{Num T} (c : cond) : option (filter (T := T)) :=
  match c_law c with Demand _ f => Some f | _ => None end.

Lemma fed_filter {T} `{Num T} dt flux sp (c : cond (T := T)) f : filter_of c = Some f ->
  filter_of (cond_step dt (fed flux sp c)) = Some (demand_filter dt flux sp f) /\
  c_eff (cond_step dt (fed flux sp c)) = demand_eff dt (demand_filter dt flux sp f).
Proof.
  unfold filter_of, cond_step, fed, update_state. destruct (c_law c) as [| | |sp0 f0]; try discriminate.
  intros [= ->]. cbn [c_law c_b with_flux b_flux c_eff]. split; reflexivity.
Qed.

(** A contraction driven by a vanishing term vanishes. *)
Lemma contract_cv (q : R) (e x : nat -> R) : 0 <= q < 1 ->
  (forall k, Rabs (e (S k)) <= q * Rabs (e k) + (1 - q) * Rabs (x k)) ->
  Un_cv x 0 -> Un_cv e 0.
Proof.
  intros Hq He Hx eps Heps.
  destruct (Hx (eps / 2)) as (N & HN); [lra|].
  assert (B : forall m, Rabs (e (N + m)%nat) <= q ^ m * Rabs (e N) + eps / 2).
  { induction m as [|m IH].
    - rewrite Nat.add_0_r. cbn [pow]. lra.
    - replace (N + S m)%nat with (S (N + m)) by lia. eapply Rle_trans; [apply He|].
      specialize (HN (N + m)%nat ltac:(lia)). unfold R_dist in HN. rewrite Rminus_0_r in HN.
      cbn [pow]. assert (Rabs (x (N + m)%nat) <= eps / 2) by lra.
      pose proof (Rabs_pos (x (N + m)%nat)). nra. }
  pose proof (Rabs_pos (e N)) as Pe.
  destruct (pow_lt_1_zero q) with (y := eps / 2 / (Rabs (e N) + 1)) as (M & HM).
  { rewrite Rabs_right; lra. }
  { apply Rmult_lt_0_compat; [lra|apply Rinv_0_lt_compat; lra]. }
  exists (N + M)%nat. intros k Hk. unfold R_dist. rewrite Rminus_0_r.
  replace k with (N + (k - N))%nat by lia. eapply Rle_lt_trans; [apply B|].
  specialize (HM (k - N)%nat ltac:(lia)). rewrite Rabs_right in HM by (apply Rle_ge, pow_le; lra).
  assert (q ^ (k - N) * Rabs (e N) < eps / 2).
  { apply Rle_lt_trans with (q ^ (k - N) * (Rabs (e N) + 1)).
    - apply Rmult_le_compat_l; [apply pow_le; lra|lra].
    - apply Rmult_lt_reg_r with (/ (Rabs (e N) + 1)); [apply Rinv_0_lt_compat; lra|].
      rewrite Rmult_assoc, Rinv_r by lra. unfold Rdiv in HM. lra. }
  lra.
Qed.

Lemma cv_shift_0 u l : Un_cv (fun k => u k - l) 0 -> Un_cv u l.
Proof.
  intros Hu eps Heps. destruct (Hu eps Heps) as (N & HN). exists N. intros k Hk.
  specialize (HN k Hk). unfold R_dist in *. rewrite Rminus_0_r in HN. exact HN.
Qed.
Lemma cv_0_shift u l : Un_cv u l -> Un_cv (fun k => u k - l) 0.
Proof.
  intros Hu eps Heps. destruct (Hu eps Heps) as (N & HN). exists N. intros k Hk.
  specialize (HN k Hk). unfold R_dist in *. rewrite Rminus_0_r. exact HN.
Qed.
Lemma cv_const l : Un_cv (fun _ => l) l.
Proof. intros eps Heps. exists O. intros. unfold R_dist. rewrite Rminus_eq_0, Rabs_R0. lra. Qed.
Lemma cv_eventually u v l N : (forall k, (N <= k)%nat -> u k = v k) -> Un_cv u l -> Un_cv v l.
Proof.
  intros E Hu eps Heps. destruct (Hu eps Heps) as (M & HM). exists (N + M)%nat. intros k Hk.
  rewrite <- E by lia. apply HM. lia.
Qed.
Lemma cv_tail u l N : Un_cv (fun k => u (N + k)%nat) l -> Un_cv u l.
Proof.
  intros Hu eps Heps. destruct (Hu eps Heps) as (M & HM). exists (N + M)%nat. intros k Hk.
  replace k with (N + (k - N))%nat by lia. apply HM. lia.
Qed.
Lemma cv_head u l N : Un_cv u l -> Un_cv (fun k => u (N + k)%nat) l.
Proof. intros Hu eps Heps. destruct (Hu eps Heps) as (M & HM). exists M. intros k Hk. apply HM. lia. Qed.
Lemma cv_inv u l : l <> 0 -> Un_cv u l -> Un_cv (fun k => / u k) (/ l).
Proof.
  intros Hl Hu. apply (continuity_seq (fun x => / x)); [|exact Hu].
  apply (continuity_pt_inv (fun x => x)); [apply derivable_continuous_pt, derivable_pt_id|exact Hl].
Qed.

Lemma half_dec : Rdec 5 (-1) = / 2.
Proof. unfold Rdec. cbn. lra. Qed.

(** If the other side behaves as a capacitor of capacitance [C] drained by a
    constant flux, the estimate converges to [C] and the conductance of the link
    to [C / dt], whatever the state of the filter at the start. *)
Theorem C97_estimate_converges (c : cond (T := R)) f0 dt flux p C : filter_of c = Some f0 ->
  Reps < dt -> C <> 0 -> 0 < f_gain f0 <= 1 -> 4 * Reps <= Rabs flux ->
  f_minDp f0 < Rabs (flux * dt / C) ->
  let sp k := p - INR k * (flux * dt / C) in
  Un_cv (fun k => estimate (fed_run dt flux sp k c)) C /\
  (f_minG f0 < C / dt -> Un_cv (fun k => c_eff (fed_run dt flux sp k c)) (C / dt)).
Proof.
  intros Hf Hdt HC Hg Hfl Hdp sp. pose proof Reps_pos as Ep.
  set (s := - (flux * dt / C)).
  set (F := fix F k := match k with O => f0 | S k => demand_filter dt flux (sp k) (F k) end).
  assert (HF : forall k, filter_of (fed_run dt flux sp k c) = Some (F k)).
  { induction k as [|k IH]; [exact Hf|]. cbn [fed_run F]. apply fed_filter, IH. }
  assert (He : forall k, c_eff (fed_run dt flux sp (S k) c) = demand_eff dt (F (S k))).
  { intros k. cbn [fed_run]. destruct (fed_filter dt flux (sp k) (fed_run dt flux sp k c) (F k) (HF k)) as (_ & E). exact E. }
  assert (Hpar : forall k, f_gain (F k) = f_gain f0 /\ f_minDp (F k) = f_minDp f0 /\ f_minG (F k) = f_minG f0).
  { induction k as [|k IH]; [repeat split|]. cbn [F]. exact IH. }
  assert (Hest : forall k, estimate (fed_run dt flux sp k c) = f_cap (F k)).
  { intros k. specialize (HF k). unfold filter_of in HF. unfold estimate.
    destruct (c_law _); try discriminate HF. inversion HF. reflexivity. }
  assert (Hdem : forall k, f_dem (F (S k)) =
    if Rltb (Rabs (/ 2 * (f_dem (F k) + flux))) Reps then 0 else / 2 * (f_dem (F k) + flux)).
  { intros k. cbn [F]. unfold demand_filter. cbv zeta. cbn [f_dem]. rnum. rewrite half_dec. reflexivity. }
  assert (Hsup : forall k, f_sup (F (S k)) = / 2 * (f_sup (F k) + sp k)).
  { intros k. cbn [F]. unfold demand_filter. cbv zeta. cbn [f_sup]. rnum. rewrite half_dec. reflexivity. }
  assert (Hd : forall k, f_dsup (F (S k)) = f_sup (F (S k)) - f_sup (F k)).
  { intros k. rewrite Hsup. cbn [F]. unfold demand_filter. cbv zeta. cbn [f_dsup]. rnum. rewrite half_dec. ring. }
  assert (Hcap : forall k, f_cap (F (S k)) = if Rltb (f_minDp f0) (Rabs (f_dsup (F (S k))))
    then (1 - f_gain f0) * f_cap (F k) + f_gain f0 * (- f_dem (F (S k)) * dt / f_dsup (F (S k))) else f_cap (F k)).
  { intros k. destruct (Hpar k) as (E1 & E2 & _). rewrite <- E1, <- E2. reflexivity. }
  assert (Cdem : Un_cv (fun k => f_dem (F k)) flux).
  { apply cv_shift_0. apply contract_cv with (q := 2 / 3) (x := fun _ => 0); [lra| |apply cv_const].
    intros k. rewrite Hdem, Rabs_R0.
    destruct (Rltb_spec (Rabs (/ 2 * (f_dem (F k) + flux))) Reps) as [Hs|Hs].
    - rewrite Rminus_0_l, Rabs_Ropp.
      set (a := / 2 * (f_dem (F k) + flux)) in *. replace (f_dem (F k) - flux) with (2 * (a - flux)) by (unfold a; field).
      rewrite Rabs_mult, (Rabs_right 2) by lra.
      pose proof (Rabs_triang_inv flux a). rewrite (Rabs_minus_sym a flux). lra.
    - replace (/ 2 * (f_dem (F k) + flux) - flux) with (/ 2 * (f_dem (F k) - flux)) by field.
      rewrite Rabs_mult, (Rabs_right (/ 2)) by lra. pose proof (Rabs_pos (f_dem (F k) - flux)). lra. }
  assert (Cd : Un_cv (fun k => f_dsup (F (S k))) s).
  { apply cv_shift_0. apply contract_cv with (q := / 2) (x := fun _ => 0); [lra| |apply cv_const].
    intros k. rewrite Rabs_R0. rewrite (Hd (S k)), (Hsup (S k)), (Hd k), (Hsup k).
    replace (/ 2 * (/ 2 * (f_sup (F k) + sp k) + sp (S k)) - / 2 * (f_sup (F k) + sp k) - s)
      with (/ 2 * (/ 2 * (f_sup (F k) + sp k) - f_sup (F k) - s) + / 2 * (sp (S k) - sp k - s)) by field.
    replace (sp (S k) - sp k - s) with 0 by (unfold sp, s; rewrite S_INR; ring).
    rewrite Rmult_0_r, Rplus_0_r, Rabs_mult, (Rabs_right (/ 2)) by lra. lra. }
  assert (Hflux : flux <> 0) by (intros ->; rewrite Rabs_R0 in Hfl; lra).
  assert (Hs0 : s <> 0).
  { unfold s. intros K. assert (K2 : flux * dt / C = 0) by lra. unfold Rdiv in K2.
    apply Rmult_integral in K2. destruct K2 as [K2|K2]; [nra|]. apply (Rinv_neq_0_compat C HC K2). }
  assert (Cx : Un_cv (fun k => - f_dem (F (S k)) * dt / f_dsup (F (S k))) C).
  { replace C with (- flux * dt * / s).
    - apply (CV_mult (fun k => - f_dem (F (S k)) * dt) (fun k => / f_dsup (F (S k)))).
      + apply (CV_mult (fun k => - f_dem (F (S k))) (fun _ => dt)); [|apply cv_const].
        apply (CV_opp (fun k => f_dem (F (S k)))). exact (cv_head _ _ 1 Cdem).
      + apply cv_inv; assumption.
    - unfold s. field. repeat split; try assumption; nra. }
  assert (Ev : exists N, forall k, (N <= k)%nat -> f_minDp f0 < Rabs (f_dsup (F (S k)))).
  { set (m := Rabs s - f_minDp f0). assert (Hm : 0 < m) by (unfold m, s; rewrite Rabs_Ropp; lra).
    destruct (Cd m Hm) as (N & HN). exists N. intros k Hk. specialize (HN k Hk). unfold R_dist in HN.
    pose proof (Rabs_triang_inv s (f_dsup (F (S k)))). rewrite (Rabs_minus_sym s) in H. unfold m in HN. lra. }
  destruct Ev as (N & HN).
  assert (Ccap : Un_cv (fun k => f_cap (F k)) C).
  { apply cv_tail with N. apply cv_shift_0.
    apply contract_cv with (q := 1 - f_gain f0)
      (x := fun k => - f_dem (F (S (N + k))) * dt / f_dsup (F (S (N + k))) - C).
    - lra.
    - intros k. replace (N + S k)%nat with (S (N + k)) by lia. rewrite Hcap.
      rewrite Rltb_true by (apply HN; lia).
      set (u := f_cap (F (N + k)%nat)). set (x := - f_dem (F (S (N + k))) * dt / f_dsup (F (S (N + k)))).
      replace ((1 - f_gain f0) * u + f_gain f0 * x - C) with ((1 - f_gain f0) * (u - C) + f_gain f0 * (x - C)) by ring.
      eapply Rle_trans; [apply Rabs_triang|]. rewrite !Rabs_mult.
      rewrite (Rabs_right (1 - f_gain f0)), (Rabs_right (f_gain f0)) by lra. right. ring.
    - apply cv_0_shift. exact (cv_head _ _ N Cx). }
  split.
  - apply cv_eventually with (u := fun k => f_cap (F k)) (N := O); [|exact Ccap]. intros k _. symmetry. apply Hest.
  - intros HG.
    assert (Cq : Un_cv (fun k => f_cap (F k) / dt) (C / dt)).
    { apply (CV_mult (fun k => f_cap (F k)) (fun _ => / dt)); [exact Ccap|apply cv_const]. }
    destruct (Cq (C / dt - f_minG f0)) as (M & HM); [lra|].
    apply cv_eventually with (u := fun k => f_cap (F k) / dt) (N := S M); [|exact Cq].
    intros k Hk. destruct k as [|k]; [lia|]. rewrite He. unfold demand_eff.
    destruct (Hpar (S k)) as (_ & _ & ->). rewrite nmax_R. rnum. rewrite Rltb_true by lra.
    symmetry. apply Rmax_left. specialize (HM (S k) ltac:(lia)). unfold R_dist in HM.
    set (z := f_cap (F (S k)) / dt) in *. apply Rabs_def2 in HM. lra.
Qed.
Print Assumptions C97_estimate_converges.

(** Never below the minimum conductance the user set. *)
Theorem C97_minimum (c : cond (T := R)) f dt : filter_of c = Some f -> f_minG f <= c_eff (cond_step dt c).
Proof.
  unfold filter_of, cond_step, update_state. destruct (c_law c) as [| | |sp f1]; try discriminate.
  intros [= ->]. cbv zeta. cbn [c_eff]. unfold demand_eff. rewrite nmax_R. rnum.
  destruct (Rltb Reps dt); [|cbn [demand_filter f_minG]; lra].
  eapply Rle_trans; [|apply Rmax_r]. cbn [demand_filter f_minG]. lra.
Qed.
Print Assumptions C97_minimum.

(** In binary64: the estimate is kept when the filtered supply potential does
    not move, so that nothing is divided by zero. *)
Theorem C97_no_division_by_zero (c : cond (T := float)) f dt flux sp : filter_of c = Some f ->
  (n0 <=~ f_minDp f) = true ->
  forall f', filter_of (cond_step dt (fed flux sp c)) = Some f' ->
  (f_dsup f' ==~ n0) = true -> f_cap f' = f_cap f.
Proof.
  intros Hf Hm f' Hf'. destruct (fed_filter dt flux sp c f Hf) as (E & _). rewrite E in Hf'.
  inversion Hf' as [Ef]. clear Hf'. unfold demand_filter. cbv zeta. cbn [f_dsup f_cap].
  set (d := nopp (f_sup f) +~ _). set (q := _ +~ f_gain f *~ _). intros Hd. clearbody q.
  destruct (f_minDp f <~ nabs d) eqn:K; [|reflexivity]. exfalso.
  clearbody d. clear - Hm K Hd.
  assert (Nm : nnan (f_minDp f) = false) by (apply le_nan in Hm; apply Hm).
  assert (Nd : nnan d = false) by (apply lt_nan in K; rewrite (abs_nan (T := float)) in K; apply K).
  rewrite fnnan in Nm, Nd. unfold fnan in Nm, Nd.
  cbn [nle nlt neqb nabs n0 FNum] in Hm, K, Hd.
  rewrite FloatAxioms.leb_spec in Hm. rewrite FloatAxioms.eqb_spec in Hd.
  rewrite FloatAxioms.ltb_spec, abs_spec in K.
  change (Prim2SF 0%float) with (S754_zero false) in *. unfold SFeqb, SFltb, SFleb in *.
  destruct (Prim2SF d) as [sd|sd| |sd md ed]; try (destruct sd); try discriminate Hd; try discriminate Nd;
    destruct (Prim2SF (f_minDp f)) as [sm|sm| |sm mm em]; try (destruct sm); cbn in Hm, K; discriminate.
Qed.
Print Assumptions C97_no_division_by_zero.

Lemma fmul_nan_l (x y : float) : nnan x = true -> nnan (x *~ y) = true.
Proof.
  rewrite !fnnan. unfold fnan. cbn [nmul FNum]. rewrite mul_spec.
  destruct (Prim2SF x); cbn; try discriminate. auto.
Qed.
Lemma fmul_nan_r (x y : float) : nnan y = true -> nnan (x *~ y) = true.
Proof.
  rewrite !fnnan. unfold fnan. cbn [nmul FNum]. rewrite mul_spec.
  destruct (Prim2SF y); try discriminate. destruct (Prim2SF x); cbn; auto.
Qed.
Lemma fdiv_nan_l (x y : float) : nnan x = true -> nnan (x /~ y) = true.
Proof.
  rewrite !fnnan. unfold fnan. cbn [ndiv FNum]. rewrite div_spec.
  destruct (Prim2SF x); cbn; try discriminate. auto.
Qed.

(** The inputs of one step: step size, flux, supply potential, blockage. *)
Definition input := (float * float * float * (bool * float))%type.
Definition with_malf {T} (b : base (T := T)) (malf : bool) (v : T) : base :=
  mkbase (b_p0 b) (b_p1 b) (b_a0 b) (b_a1 b) (b_a2 b) (b_a3 b) (b_w0 b) (b_w1 b) (b_upd b)
         (b_flux b) (b_drop b) (b_power b) malf v.
Definition drive (i : input) (c : cond (T := float)) : cond :=
  let '(dt, flux, sp, (malf, v)) := i in
  cond_step dt (fed flux sp (with_base c (with_malf (c_b c) malf v))).
Definition drives (is : list input) (c : cond (T := float)) : cond := fold_left (fun c i => drive i c) is c.

Lemma set_adm_nan (b : base (T := float)) a : nnan a = true -> set_adm b a = b.
Proof.
  intros Na. unfold set_adm. rewrite (ord_nan_lt (T := float)); [reflexivity|].
  rewrite (abs_nan (T := float)), (fnan_sub_r (b_a0 b) a Na). apply orb_true_r.
Qed.

Lemma nan_stays (c : cond (T := float)) f i : filter_of c = Some f -> nnan (f_cap f) = true ->
  (neps <~ fst (fst (fst i))) = true ->
  exists f', filter_of (drive i c) = Some f' /\ nnan (f_cap f') = true /\ b_a0 (c_b (drive i c)) = b_a0 (c_b c).
Proof.
  destruct i as [[[dt flux] sp] [malf v]]. cbn [fst]. intros Hf Nf Hdt. unfold drive.
  set (c1 := with_base c _).
  assert (Hf1 : filter_of c1 = Some f) by exact Hf.
  destruct (fed_filter dt flux sp c1 f Hf1) as (E & Ee).
  set (f' := demand_filter dt flux sp f) in *.
  assert (Nf' : nnan (f_cap f') = true).
  { unfold f', demand_filter. cbv zeta. cbn [f_cap].
    match goal with |- context [if ?t then _ else _] => destruct t end; [|exact Nf].
    apply fadd_nan, fmul_nan_r, Nf. }
  exists f'. split; [exact E|]. split; [exact Nf'|].
  assert (Nq : nnan (demand_eff dt f') = true).
  { unfold demand_eff. rewrite Hdt. pose proof (fdiv_nan_l (f_cap f') dt Nf') as Nd.
    unfold nmax. rewrite (ord_nan_lt (T := float)); [exact Nd|]. rewrite Nd. reflexivity. }
  clear E Ee. unfold cond_step, update_state, fed. cbn [c_law c_b].
  unfold filter_of in Hf1. destruct (c_law c1) as [| | |sp1 f1]; try discriminate. inversion Hf1; subst f1.
  cbn [with_flux b_flux]. cbv zeta. fold f'. cbn [c_b]. unfold build_potential, with_src. cbn [b_a0].
  rewrite set_adm_nan; [reflexivity|].
  rewrite C36_limit_range_nan; [|].
  1: { destruct (b_malf _); [apply fmul_nan_l|]; exact Nq. }
  destruct (b_malf _); [apply fmul_nan_l|]; exact Nq.
Qed.

(** The minimum potential change is not validated.  With a negative one, a
    supply potential at rest makes the estimate a NaN, which no later input
    removes and which freezes the admittance of the link. *)
Theorem C97_nan_latch_refuted : exists (c : cond (T := float)) f, reach (Cond c) /\ filter_of c = Some f /\
  (f_minDp f <~ n0) = true /\ nnan (f_cap f) = false /\
  forall is, (forall i, In i is -> (neps <~ fst (fst (fst i))) = true) ->
  let c' := drives is (drive (1, 0, 0, (false, 0))%float c) in
  nnan (estimate c') = true /\ b_a0 (c_b c') = b_a0 (c_b c).
Proof.
  set (f := (mkfilter 0 (-1) 0.5 0 0 0 0)%float : filter (T := float)).
  set (c := (mkcond blank 0 0 0 (Demand 0 f))%float : cond (T := float)).
  exists c, f. split; [apply r_new; repeat split|]. split; [reflexivity|].
  split; [reflexivity|]. split; [reflexivity|].
  assert (Gen : forall is (d : cond (T := float)) g, filter_of d = Some g -> nnan (f_cap g) = true ->
    (forall i, In i is -> (neps <~ fst (fst (fst i))) = true) ->
    nnan (estimate (drives is d)) = true /\ b_a0 (c_b (drives is d)) = b_a0 (c_b d)).
  { induction is as [|i is IH]; intros d g Hg Ng His.
    - cbn [drives fold_left]. split; [|reflexivity]. unfold estimate. unfold filter_of in Hg.
      destruct (c_law d); try discriminate. inversion Hg. exact Ng.
    - destruct (nan_stays d g i Hg Ng (His i (or_introl eq_refl))) as (g' & Hg' & Ng' & Ea).
      change (drives (i :: is) d) with (drives is (drive i d)).
      destruct (IH (drive i d) g' Hg' Ng') as (H1 & H2); [intros j Hj; apply His; right; exact Hj|].
      rewrite H2, Ea. auto. }
  intros is His. cbv zeta.
  set (d := drive _ c).
  assert (Hd : exists g, filter_of d = Some g /\ nnan (f_cap g) = true /\ b_a0 (c_b d) = b_a0 (c_b c)).
  { unfold d, drive. set (c1 := with_base c _).
    destruct (fed_filter 1%float 0%float 0%float c1 f eq_refl) as (E & _).
    eexists. split; [exact E|]. split; vm_compute; reflexivity. }
  destruct Hd as (g & Hg & Ng & Ea). destruct (Gen is d g Hg Ng His) as (H1 & H2). rewrite H2. auto.
Qed.
Print Assumptions C97_nan_latch_refuted.

Example C97_ok : exists (c : cond (T := R)) f, reach (Cond c) /\ filter_of c = Some f /\
  0 < f_gain f <= 1 /\ f_minDp f < Rabs (1 * 1 / 2) /\ f_minG f < 2 / 1.
Proof.
  exists (mkcond blank 0 0 0 (Demand 0 (mkfilter 0 0 1 0 0 0 0))), (mkfilter 0 0 1 0 0 0 0).
  split; [apply r_new; repeat split|]. split; [reflexivity|]. cbn [f_gain f_minDp f_minG].
  replace (1 * 1 / 2) with (/ 2) by field. rewrite Rabs_right by lra. lra.
Qed.
