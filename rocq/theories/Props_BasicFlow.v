(** C91-C97 continued: exactness, charge, conductance in doubles, the flow
    controller, solvability and the external demand filter. *)
From Coq Require Import Floats.
From Coq Require Import Reals Lra Lia List Arith Bool ZArith Permutation Psatz.
From Verif Require Import Num Loops Ord Round MathUtil Links Spec_Ldu Ldu LduFacts LduDom Spec_Assembly Assembly
  BasicLinks Spec_BasicLinks Props_Network Props_BasicLinks.
Import ListNotations.
Local Open Scope R_scope.

(** ** Links for the examples *)
Definition blank {T} {N : Num T} : base (T := T) :=
  mkbase n0 n0 n0 n0 n0 n0 n0 n0 false n0 n0 n0 false n0.
Definition conductor {T} {N : Num T} (g : T) : blink := Cond (mkcond blank g g n0 Plain).
Definition source {T} {N : Num T} (s : T) : blink := Source s blank.
Definition capacitor {T} {N : Num T} (c : T) : blink := Capacitor c false n0 blank.
Lemma conductor_reach {T} {N : Num T} g : reach (conductor (T := T) g).
Proof. apply r_new. repeat split. Qed.
Lemma source_reach {T} {N : Num T} g : reach (source (T := T) g).
Proof. apply r_new. repeat split. Qed.
Lemma capacitor_reach {T} {N : Num T} g : reach (capacitor (T := T) g).
Proof. apply r_new. repeat split. Qed.

Lemma limit_value : (conductance_limit : R) = 10 ^ 15.
Proof. unfold conductance_limit. rnum. unfold Rdec. rewrite (pow_IZR 10 15). cbn. lra. Qed.

Lemma conductor_step_R g dt : 0 <= g <= 10 ^ 15 ->
  b_a0 (bbase (step dt (conductor g))) = g /\ b_w0 (bbase (step dt (conductor g))) = 0.
Proof.
  intros Hg. cbn [step conductor bbase]. unfold cond_step, update_state. cbn [c_law c_b c_def b_malf blank].
  assert (E : limit_range n0 g conductance_limit = g).
  { unfold limit_range, nmax, nmin. rewrite limit_value. rnum.
    destruct (Rltb_spec (10 ^ 15) g); [lra|]. destruct (Rltb_spec g 0); lra. }
  rewrite E. assert (Sq : square (blank (T := R))) by (unfold square, blank; cbn; lra).
  destruct (set_adm_R blank g Sq) as (_ & A & _ & _ & W & _). split; [exact A|exact W].
Qed.

(** A network whose solution is exact and yet a node gains flux: 1 unit enters
    node 0, which has no capacitance, and none leaves it. *)
Definition leaky : list (wired (T := R)) :=
  [mkwired (step 1 (source 1)) 2 0; mkwired (step 1 (conductor 1)) 0 1;
   mkwired (step 1 (conductor (/ 10 ^ 15))) 1 2].
Definition big : R := 10 ^ 15.
Definition leaky_p (i : nat) : R := if Nat.eqb i 0 then big + 1 else big.

Lemma leaky_ok : (forall w, In w leaky -> built (w_link w)) /\ (forall w, In w leaky -> on_network 2 w).
Proof.
  split; intros w Hw; destruct Hw as [<-|[<-|[<-|[]]]];
    try (unfold on_network; cbn; lia); cbn [w_link]; apply bu_step;
    (apply source_reach || apply conductor_reach).
Qed.

Lemma tiny_g : 0 <= / 10 ^ 15 <= 10 ^ 15.
Proof.
  assert (0 < 10 ^ 15) by (apply pow_lt; lra). split; [apply Rlt_le, Rinv_0_lt_compat; lra|].
  apply Rle_trans with 1; [|rewrite (pow_IZR 10 15); apply IZR_le; lia].
  rewrite <- Rinv_1. apply Rinv_le_contravar; [lra|]. rewrite (pow_IZR 10 15); apply IZR_le; lia.
Qed.

Lemma one_g : 0 <= 1 <= 10 ^ 15.
Proof. split; [lra|]. rewrite (pow_IZR 10 15); apply IZR_le; lia. Qed.

Theorem C91_exact_conservation_refuted : exists n (ws : list (wired (T := R))) p W s,
  (forall w, In w ws -> built (w_link w)) /\ (forall w, In w ws -> on_network n w) /\
  build_source n (map (shown n) ws) (fun _ => 0) = Some W /\
  snd (flow_pass (map (load n p) ws)) = Some s /\
  (forall i, (i < n)%nat -> mat_vec n (view n (build_admittance n (map (shown n) ws) (fun _ => 0))) p i = W (Z.of_nat i)) /\
  exists i, (i < n)%nat /\ net_flux s (Z.of_nat i) = 1.
Proof.
  destruct leaky_ok as (B & O).
  destruct (sources_of 2 leaky (fun _ => 0) B O) as (W & HW & HS).
  destruct (flow_pass_net (map (load 2 leaky_p) leaky)) as (s & Hs & Hn).
  exists 2%nat, leaky, leaky_p, W, s. split; [exact B|]. split; [exact O|]. split; [exact HW|].
  split; [exact Hs|].
  destruct (conductor_step_R 1 1 one_g) as (A1 & W1).
  destruct (conductor_step_R (/ 10 ^ 15) 1 tiny_g) as (A2 & W2).
  assert (A3 : b_a0 (bbase (step 1 (source 1))) = 0) by reflexivity.
  assert (W3 : b_w0 (bbase (step 1 (source 1))) = - 1) by reflexivity.
  assert (P : 0 < 10 ^ 15) by (apply pow_lt; lra).
  split.
  - intros i Hi. rewrite (row_of 2 leaky (fun _ => 0) leaky_p i B O Hi), (HS i Hi).
    unfold leaky. cbn [lsum w_link w_n0 w_n1]. rewrite A1, A2, A3, W1, W2, W3.
    destruct i as [|[|i]]; [| |lia]; cbn [Z.of_nat Z.eqb when Pos.of_succ_nat Pos.eqb];
      unfold port_pot, leaky_p; cbn [Z.ltb Z.compare Z.of_nat Pos.compare Pos.compare_cont Pos.of_succ_nat
         Pos.succ Z.to_nat Pos.to_nat Pos.iter_op Nat.eqb]; change (Pos.to_nat 1) with 1%nat; cbn [Nat.eqb];
      change (n0 : R) with 0; fold big in *; try lra; field_simplify; lra.
  - exists 0%nat. split; [lia|]. rewrite Hn. unfold leaky. cbn [map lsum].
    unfold inflow. cbn [wmap load w_n0 w_n1 w_link Z.eqb Z.of_nat when].
    assert (F1 : flux_of (flows (set_base (step 1 (source 1)) (with_pot (bbase (step 1 (source 1)))
        (port_pot 2 leaky_p 2) (port_pot 2 leaky_p 0)))) = 1) by reflexivity.
    rewrite F1.
    set (q := flux_of _). assert (F2 : q = 0).
    { unfold q. cbn [step conductor]. set (c := cond_step 1 _).
      cbn [set_base flows flux_of bbase]. unfold cond_flows, with_base. cbn [c_b c_law].
      assert (L : c_law c = Plain) by reflexivity. rewrite L.
      unfold flux_dead, with_drop, with_pot, delta, eps100, compute_power, with_power, with_flux.
      cbn [b_flux b_drop b_p0 b_p1 b_a0]. rewrite nmax_R.
      change (port_pot 2 leaky_p 0) with (big + 1). change (port_pot 2 leaky_p 1) with big.
      fold big in P. rewrite Rmax_left by lra. rnum. unfold Rdec.
      rewrite (Rabs_right (big + 1 - big)) by lra.
      rewrite Rltb_true; [reflexivity|].
      unfold Reps. replace (big + 1 - big) with 1 by ring. unfold big.
      rewrite (pow_IZR 10 15). apply Rmult_lt_reg_r with (IZR (2 ^ 52)); [apply IZR_lt; reflexivity|].
      rewrite Rmult_assoc, (Rmult_assoc 100), Rinv_l by (apply not_0_IZR; discriminate).
      rewrite Rmult_1_l, Rmult_1_r, <- plus_IZR, <- mult_IZR. apply IZR_lt. reflexivity. }
    rewrite F2. ring.
Qed.
Print Assumptions C91_exact_conservation_refuted.

(** ** C92 continued: conductors never give power *)
Theorem C92_conductors_dissipate (l : blink (T := R)) : reach l -> plain_like l = true ->
  power_of (flows l) <= 0.
Proof.
  intros Rl P. pose proof (reach_shape l Rl) as Sh. destruct l as [c|s b|cap e v b]; try discriminate P.
  unfold shape in Sh. cbn [bbase] in Sh. destruct Sh as (_ & _ & Ha & _).
  cbn [plain_like] in P. unfold power_of. cbn [flows bbase]. unfold cond_flows, with_base.
  cbn [c_b]. set (d := delta (c_b c)).
  assert (K : forall f, f = 0 \/ f = d * b_a0 (c_b c) ->
     b_power (compute_power (with_flux (with_drop (c_b c) d) f)) <= 0).
  { intros f Hf. unfold compute_power, with_power, with_flux, with_drop, delta. cbn [b_power b_flux b_p0 b_p1].
    change (b_p0 (c_b c) -~ b_p1 (c_b c)) with d. clearbody d. rnum.
    pose proof (Rmult_le_pos (d * d) (b_a0 (c_b c)) (Rle_0_sqr d) (proj1 Ha)) as Q.
    destruct Hf as [->| ->]; [rewrite Ropp_0; lra|].
    replace (- (d * b_a0 (c_b c)) * d) with (- (d * d * b_a0 (c_b c))) by ring. lra. }
  destruct (c_law c); try discriminate P; apply K; unfold flux_dead; cbn [with_drop b_drop b_p0 b_p1 b_a0]; rnum;
    match goal with |- context [if ?t then _ else _] => destruct t end; auto.
Qed.
Print Assumptions C92_conductors_dissipate.

(** ** C93 Charge of a capacitor *)

(** One major step: step(), then any number of tried solutions, then the flows. *)
Definition try_all (l : blink (T := R)) (ps : list (R * R)) : blink :=
  fold_left (fun l xy => placed (fst xy) (snd xy) l) ps l.
Definition is_capacitor (l : blink (T := R)) : Prop :=
  match l with Capacitor _ _ _ _ => True | _ => False end.

Lemma try_all_cap ps : forall cap e v (b : base (T := R)), exists x y,
  try_all (Capacitor cap e v b) ps = Capacitor cap e v (with_pot b x y).
Proof.
  induction ps as [|[x y] ps IH]; intros.
  - exists (b_p0 b), (b_p1 b). destruct b; reflexivity.
  - cbn [try_all fold_left]. unfold placed at 2. cbn [set_base bbase fst snd].
    destruct (IH cap e v (with_pot b x y)) as (x' & y' & E). exists x', y'.
    unfold try_all in E. rewrite E. reflexivity.
Qed.

Theorem C93_flux_is_charge_rate (l : blink (T := R)) dt ps : reach l -> is_capacitor l ->
  let l1 := step dt l in
  let l2 := try_all l1 ps in
  let l3 := flows l2 in
  flux_of l3 * Rmax dt Reps = capacitance_of l1 * (drop_of l2 - drop_of l) /\ drop_of l3 = drop_of l2.
Proof.
  intros Rl K. pose proof (shape_pre l (reach_shape l Rl)) as (Sq & _).
  destruct l as [c|s b|cap e v b]; try contradiction. cbn [bbase] in Sq. cbv zeta. cbn [step].
  set (c := if e then v else cap).
  destruct (try_all_cap ps c false v (build_capacitance dt c b)) as (x & y & E). rewrite E.
  split; [|reflexivity].
  unfold build_capacitance. cbv zeta. set (a := if dt <~ neps then _ else _).
  destruct (set_adm_R b a Sq) as (_ & A & P0 & P1 & _).
  unfold flux_of, drop_of, capacitance_of. cbn [flows bbase].
  unfold cap_flows, compute_power, with_power, with_flux, with_drop, with_pot, with_src, flux_src, delta.
  cbn [b_flux b_drop b_a0 b_w0 b_p0 b_p1]. rewrite A, P0, P1. rnum.
  pose proof Reps_pos. subst a. rnum. destruct (Rltb_spec dt Reps).
  - rewrite Rmax_right by lra. field. lra.
  - rewrite Rmax_left by lra. field. lra.
Qed.
Print Assumptions C93_flux_is_charge_rate.

(** Any number of major steps; the sum of flux times dt. *)
Fixpoint drive (us : list (R * list (R * R))) (l : blink (T := R)) : blink * R :=
  match us with
  | [] => (l, 0)
  | (dt, ps) :: us =>
      let l1 := flows (try_all (step dt l) ps) in
      let (l2, q) := drive us l1 in (l2, flux_of l1 * dt + q)
  end.

Lemma try_all_reach ps : forall l, reach l -> reach (try_all l ps).
Proof.
  induction ps as [|[x y] ps IH]; intros l H; [exact H|]. cbn [try_all fold_left].
  apply IH. now apply r_place.
Qed.

Theorem C93_charge_conserved us : forall l : blink (T := R), reach l ->
  (exists cap v b, l = Capacitor cap false v b) -> (forall u, In u us -> Reps <= fst u) ->
  let (l', q) := drive us l in
  capacitance_of l' = capacitance_of l /\ q = capacitance_of l * (drop_of l' - drop_of l).
Proof.
  induction us as [|[dt ps] us IH]; intros l Rl (cap & v & b & ->) Hdt.
  - cbn. lra.
  - cbn [drive]. set (l0 := Capacitor cap false v b) in *.
    destruct (C93_flux_is_charge_rate l0 dt ps Rl I) as (F & D). cbv zeta in F, D.
    set (l1 := flows (try_all (step dt l0) ps)) in *.
    assert (R1 : reach l1) by (apply r_flow, try_all_reach, r_step; exact Rl).
    destruct (try_all_cap ps cap false v (build_capacitance dt cap b)) as (x & y & E).
    assert (S1 : exists cap' v' b', l1 = Capacitor cap' false v' b').
    { unfold l1, l0. cbn [step]. rewrite E. cbn [flows]. eauto. }
    assert (C1 : capacitance_of l1 = cap) by (unfold l1, l0; cbn [step]; rewrite E; reflexivity).
    specialize (IH l1 R1 S1 (fun u Hu => Hdt u (or_intror Hu))).
    destruct (drive us l1) as [l2 q]. destruct IH as (C2 & Q).
    pose proof (Hdt (dt, ps) (or_introl eq_refl)) as Hd. cbn [fst] in Hd.
    rewrite Rmax_left in F by exact Hd. change (capacitance_of (step dt l0)) with cap in F.
    rewrite C2, C1. cbn [capacitance_of l0]. split; [reflexivity|].
    rewrite Q, C1, F, D. ring.
Qed.
Print Assumptions C93_charge_conserved.

Example C93_run :
  let l := capacitor 2 in reach l /\ (exists cap v b, l = Capacitor cap false v b) /\
  snd (drive [(1, [(5, 0); (3, 1)]); (1 / 2, [(4, 0)])] l) = 8.
Proof.
  cbv zeta. split; [apply capacitor_reach|]. split; [unfold capacitor; eauto|].
  pose proof (C93_charge_conserved [(1, [(5, 0); (3, 1)]); (1 / 2, [(4, 0)])] (capacitor 2)
    (capacitor_reach 2) (ex_intro _ 2 (ex_intro _ n0 (ex_intro _ blank eq_refl)))) as H.
  assert (Hd : forall u, In u [(1, [(5, 0); (3, 1)]); (1 / 2, [(4, 0)])] -> Reps <= fst u).
  { intros u [<-|[<-|[]]]; cbn [fst]; unfold Reps;
      (apply Rmult_le_reg_r with (IZR (2 ^ 52)); [apply IZR_lt; reflexivity|];
       rewrite Rinv_l by (apply not_0_IZR; discriminate)); cbn; lra. }
  specialize (H Hd). destruct (drive _ _) as [l' q] eqn:E. destruct H as (_ & ->). cbn [snd].
  assert (Dl : drop_of l' = 4).
  { assert (E' : fst (drive [(1, [(5, 0); (3, 1)]); (1 / 2, [(4, 0)])] (capacitor 2)) = l') by now rewrite E.
    rewrite <- E'. unfold drop_of. cbn. ring. }
  rewrite Dl. unfold drop_of, capacitance_of, capacitor, blank. cbn. ring.
Qed.

(** ** C94 Conductance in doubles *)

Lemma fsub_zero (x y : float) : nnan x = false -> nnan y = false ->
  (n0 <~ nabs (x -~ y)) = false -> (x ==~ y) = true.
Proof.
  intros Nx Ny H. destruct (ffin x) eqn:Fx; [destruct (ffin y) eqn:Fy|].
  - destruct (FR_sub x y Fx Fy) as (Nd & Vd).
    assert (Na : nnan (nabs (x -~ y)) = false) by (rewrite (abs_nan (T := float)); exact Nd).
    rewrite FR_lt in H by (exact Na || reflexivity). rewrite FR_0, FR_abs in H by exact Nd.
    destruct (Rltb_spec 0 (Rabs (FR (x -~ y)))) as [|K]; [discriminate H|].
    assert (Z0 : FR (x -~ y) = 0).
    { destruct (Req_dec (FR (x -~ y)) 0) as [|E]; auto. apply Rabs_pos_lt in E. lra. }
    rewrite Vd in Z0. apply rnd_sub_0 in Z0; auto.
    rewrite FR_eq by assumption. rewrite Z0. unfold Reqb. destruct (Req_EM_T _ _); auto.
  - revert H. rewrite fnnan in Nx, Ny. unfold ffin in Fx, Fy. unfold fnan in Nx, Ny.
    rewrite <- Flocq.IEEE754.PrimFloat.B2SF_Prim2B in Nx, Ny.
    cbn [nlt nabs nsub neqb n0 FNum].
    rewrite FloatAxioms.ltb_spec, abs_spec, sub_spec, FloatAxioms.eqb_spec.
    rewrite <- !Flocq.IEEE754.PrimFloat.B2SF_Prim2B.
    destruct (Flocq.IEEE754.PrimFloat.Prim2B x) as [s|s| |s m e B], (Flocq.IEEE754.PrimFloat.Prim2B y) as [s'|s'| |s' m' e' B'];
      try discriminate; try destruct s; try destruct s'; cbn; try discriminate; auto.
  - revert H. rewrite fnnan in Nx, Ny. unfold ffin in Fx. unfold fnan in Nx, Ny.
    rewrite <- Flocq.IEEE754.PrimFloat.B2SF_Prim2B in Nx, Ny.
    cbn [nlt nabs nsub neqb n0 FNum].
    rewrite FloatAxioms.ltb_spec, abs_spec, sub_spec, FloatAxioms.eqb_spec.
    rewrite <- !Flocq.IEEE754.PrimFloat.B2SF_Prim2B.
    destruct (Flocq.IEEE754.PrimFloat.Prim2B x) as [s|s| |s m e B], (Flocq.IEEE754.PrimFloat.Prim2B y) as [s'|s'| |s' m' e' B'];
      try discriminate; try destruct s; try destruct s'; cbn; try discriminate; auto.
Qed.

(** NaN propagates through the operations used here. *)
Lemma fnan_sub_r (x y : float) : nnan y = true -> nnan (x -~ y) = true.
Proof.
  rewrite !fnnan. unfold fnan. cbn [nsub FNum]. rewrite sub_spec.
  destruct (Prim2SF y); try discriminate. intros _. destruct (Prim2SF x); reflexivity.
Qed.

Definition good (b : base (T := float)) : Prop :=
  nnan (b_a0 b) = false /\ (b_a1 b ==~ nopp (b_a0 b)) = true /\
  (b_a2 b ==~ nopp (b_a0 b)) = true /\ (b_a3 b ==~ b_a0 b) = true.

Lemma eq_refl_nan (x : float) : nnan x = false -> (x ==~ x) = true.
Proof. unfold nnan. intros H. now apply negb_false_iff in H. Qed.

(** Storing an admittance: a number is stored, with the flag, unless it is there
    already; NaN is not stored. *)
Lemma set_adm_F (b : base (T := float)) a : good b ->
  let b' := set_adm b a in
  good b' /\ (nnan a = false -> (b_a0 b' ==~ a) = true) /\ (nnan a = true -> b' = b) /\
  (b' = b \/ b_upd b' = true).
Proof.
  intros G. cbv zeta. unfold set_adm. destruct (n0 <~ nabs (b_a0 b -~ a)) eqn:E.
  - assert (Na : nnan a = false).
    { destruct (nnan a) eqn:Na; auto. apply (fnan_sub_r (b_a0 b)) in Na.
      apply lt_nan in E. destruct E as (_ & E). rewrite (abs_nan (T := float)) in E. congruence. }
    unfold good. cbn [b_a0 b_a1 b_a2 b_a3 b_upd]. repeat split; auto using eq_refl_nan.
    + apply eq_refl_nan. now rewrite (opp_nan (T := float)).
    + apply eq_refl_nan. now rewrite (opp_nan (T := float)).
    + intros K. congruence.
  - repeat split; try apply G; auto. intros Na. apply fsub_zero; auto. apply G.
Qed.

Lemma good_same (b b' : base (T := float)) : b_a0 b' = b_a0 b -> b_a1 b' = b_a1 b -> b_a2 b' = b_a2 b ->
  b_a3 b' = b_a3 b -> good b -> good b'.
Proof. unfold good. intros -> -> -> ->. auto. Qed.

Definition limited (l : blink (T := float)) : Prop :=
  match l with
  | Cond c => (n0 <=~ b_a0 (c_b c)) = true /\ (b_a0 (c_b c) <=~ ndec 1 15) = true
  | _ => True
  end.

Lemma clamp_F (g : float) : nnan (limit_range n0 g conductance_limit) = false ->
  (n0 <=~ limit_range n0 g conductance_limit) = true /\ (limit_range n0 g conductance_limit <=~ ndec 1 15) = true.
Proof.
  intros H. unfold limit_range in *. destruct (nnan g) eqn:Ng.
  - exfalso. unfold nmin in H. rewrite (ord_nan_lt (conductance_limit) g) in H by (rewrite Ng, orb_true_r; reflexivity).
    unfold nmax in H. rewrite (ord_nan_lt g n0) in H by (rewrite Ng; reflexivity). congruence.
  - apply (clamp_in (T := float)); [vm_compute; reflexivity|exact Ng].
Qed.

Lemma eq_le (x y z : float) : (x ==~ y) = true -> (z <=~ y) = true -> (z <=~ x) = true.
Proof.
  intros E L. destruct (le_nan _ _ L) as (Nz & Ny).
  assert (Nx : nnan x = false).
  { revert E. cbn [neqb FNum]. rewrite feqb_key, !fnnan in *. destruct (fnan x); [discriminate|reflexivity]. }
  rewrite FR_eq in E by assumption. rewrite FR_le in * by assumption. unfold Reqb in E.
  destruct (Req_EM_T (FR x) (FR y)) as [->|]; [exact L|discriminate].
Qed.
Lemma eq_le' (x y z : float) : (x ==~ y) = true -> (y <=~ z) = true -> (x <=~ z) = true.
Proof.
  intros E L. destruct (le_nan _ _ L) as (Ny & Nz).
  assert (Nx : nnan x = false).
  { revert E. cbn [neqb FNum]. rewrite feqb_key, !fnnan in *. destruct (fnan x); [discriminate|reflexivity]. }
  rewrite FR_eq in E by assumption. rewrite FR_le in * by assumption. unfold Reqb in E.
  destruct (Req_EM_T (FR x) (FR y)) as [->|]; [exact L|discriminate].
Qed.

Lemma cond_step_base {T} {N : Num T} dt (c : cond (T := T)) : exists g,
  c_sys (cond_step dt c) = limit_range n0 g conductance_limit /\
  let b := set_adm (c_b c) (c_sys (cond_step dt c)) in let b' := c_b (cond_step dt c) in
  b_a0 b' = b_a0 b /\ b_a1 b' = b_a1 b /\ b_a2 b' = b_a2 b /\ b_a3 b' = b_a3 b /\ b_upd b' = b_upd b.
Proof.
  unfold cond_step. destruct (update_state dt c) as [eff lw]. cbv zeta. eexists.
  cbn [c_sys c_b]. split; [reflexivity|]. destruct lw; repeat split.
Qed.

Lemma step_good dt (l : blink (T := float)) : good (bbase l) -> limited l ->
  good (bbase (step dt l)) /\ limited (step dt l).
Proof.
  intros G L. destruct l as [c|s b|cap e v b]; cbn [step bbase limited] in *.
  - destruct (cond_step_base dt c) as (g & Eg & E0 & E1 & E2 & E3 & _). cbv zeta in *.
    set (x := c_sys (cond_step dt c)) in *.
    destruct (set_adm_F (c_b c) x G) as (G' & V & Nn & _).
    split; [eapply good_same; eauto|]. rewrite E0.
    destruct (nnan x) eqn:Nx.
    + rewrite (Nn eq_refl). exact L.
    + specialize (V eq_refl). rewrite Eg in V, Nx |- *. destruct (clamp_F g Nx) as (C1 & C2).
      split; [eapply eq_le | eapply eq_le']; eauto.
  - split; [|exact I]. exact G.
  - split; [|exact I]. unfold build_capacitance. cbv zeta. set (a := if dt <~ neps then _ else _).
    destruct (set_adm_F b a G) as (G' & _). eapply good_same; [| | | |exact G']; reflexivity.
Qed.

Lemma reach_good (l : blink (T := float)) : reach l -> good (bbase l) /\ limited l.
Proof.
  induction 1 as [l F|l l' H IH (V & K)|dt l H IH|dt l H IH|x y l H IH|l H IH|l H IH|l H IH].
  - unfold fresh, good, limited in *. cbv zeta in *.
    destruct F as (F0 & F1 & F2 & F3 & _). split.
    + rewrite F0, F1, F2, F3. repeat split; vm_compute; reflexivity.
    + destruct l; auto. cbn [bbase] in F0. rewrite F0. split; vm_compute; reflexivity.
  - destruct V as (_ & _ & A0 & A1 & A2 & A3 & _). destruct IH as (G & L).
    split; [now apply (good_same (bbase l))|].
    destruct l, l'; try contradiction; auto. cbn [limited bbase] in *. rewrite A0. exact L.
  - apply step_good; apply IH.
  - destruct l as [c| |]; cbn [minor_step]; auto. destruct (c_law c); auto.
    apply (step_good dt (Cond c)); apply IH.
  - destruct l; exact IH.
  - destruct l; exact IH.
  - destruct l; exact IH.
  - destruct l; exact IH.
Qed.

(** In doubles, whatever the settings (NaN, infinities and negative numbers
    included): the admittance matrix never holds NaN, keeps its shape, and a
    conductance stays within 0 and 1e15. *)
Theorem C94_admittance_sound (l : blink (T := float)) : reach l ->
  let b := bbase l in
  nnan (b_a0 b) = false /\ (b_a1 b ==~ nopp (b_a0 b)) = true /\
  (b_a2 b ==~ nopp (b_a0 b)) = true /\ (b_a3 b ==~ b_a0 b) = true /\
  match l with
  | Cond _ => (n0 <=~ b_a0 b) = true /\ (b_a0 b <=~ ndec 1 15) = true
  | _ => True
  end.
Proof.
  intros H. destruct (reach_good l H) as ((G0 & G1 & G2 & G3) & L). cbv zeta.
  repeat (split; [assumption|]). destruct l; auto.
Qed.
Print Assumptions C94_admittance_sound.

(** After a step the matrix holds the commanded conductance unless that is NaN,
    and the solver is told of every change. *)
Theorem C94_conductance_follows (c : cond (T := float)) dt : reach (Cond c) ->
  let c' := cond_step dt c in
  (nnan (c_sys c') = false -> (b_a0 (c_b c') ==~ c_sys c') = true) /\
  (nnan (c_sys c') = true -> b_a0 (c_b c') = b_a0 (c_b c)) /\
  (b_upd (c_b c') = true \/
   b_upd (c_b c') = b_upd (c_b c) /\ b_a0 (c_b c') = b_a0 (c_b c) /\ b_a1 (c_b c') = b_a1 (c_b c) /\
   b_a2 (c_b c') = b_a2 (c_b c) /\ b_a3 (c_b c') = b_a3 (c_b c)).
Proof.
  intros H. destruct (reach_good _ H) as (G & _). cbn [bbase] in G. cbv zeta.
  destruct (cond_step_base dt c) as (g & Eg & E0 & E1 & E2 & E3 & Eu). cbv zeta in *.
  set (x := c_sys (cond_step dt c)) in *.
  destruct (set_adm_F (c_b c) x G) as (_ & V & Nn & U).
  rewrite E0, E1, E2, E3, Eu. split; [exact V|]. split; [intros K; now rewrite (Nn K)|].
  destruct U as [U|U]; [right; rewrite U; auto | left; exact U].
Qed.
Print Assumptions C94_conductance_follows.

Theorem C94_capacitance_follows (l : blink (T := float)) dt : reach l ->
  match l, step dt l with
  | Capacitor _ _ _ b, Capacitor cap' _ _ b' =>
      let a := if dt <~ neps then cap' /~ neps else cap' /~ dt in
      (nnan a = false -> (b_a0 b' ==~ a) = true) /\ (nnan a = true -> b_a0 b' = b_a0 b) /\
      (b_upd b' = true \/ b_upd b' = b_upd b /\ b_a0 b' = b_a0 b /\ b_a1 b' = b_a1 b /\
       b_a2 b' = b_a2 b /\ b_a3 b' = b_a3 b)
  | Capacitor _ _ _ _, _ => False
  | _, _ => True
  end.
Proof.
  intros H. destruct (reach_good _ H) as (G & _).
  destruct l as [c|s b|cap e v b]; cbn [step]; auto. cbn [bbase] in G. cbv zeta.
  set (cc := if e then v else cap).
  unfold build_capacitance. cbv zeta. set (a := if dt <~ neps then _ else _).
  destruct (set_adm_F b a G) as (_ & V & Nn & U). cbv zeta in *.
  unfold with_src. cbn [b_a0 b_a1 b_a2 b_a3 b_upd].
  split; [exact V|]. split; [intros K; now rewrite (Nn K)|].
  destruct U as [U|U]; [right; rewrite U; auto | left; exact U].
Qed.
Print Assumptions C94_capacitance_follows.

Example C94_nan_setting : exists c : cond (T := float), reach (Cond c) /\
  nnan (c_sys (cond_step 1%float c)) = true /\ b_a0 (c_b (cond_step 1%float c)) = 5%float.
Proof.
  exists (mkcond (set_adm blank 5%float) nan nan n0 Plain). split.
  - apply r_set with (step 1%float (conductor 5%float)); [apply r_step, conductor_reach|].
    split; [|exact I]. repeat split.
  - split; vm_compute; reflexivity.
Qed.
