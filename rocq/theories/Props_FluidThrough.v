(** C116-C118: nodes without volume, the pressure correction and changes of volume. *)
From Coq Require Import Floats.
From Coq Require Import Reals List Lra Lia Bool Arith.
From Verif Require Import Num MathUtil Fluid FluidNode Spec_Fluid Spec_FluidNode Props_Fluid Props_FluidNode.
Import ListNotations.
Open Scope R_scope.

(** ** C116: a node without volume passes on what flows in *)
(** The flow through the node: what comes in, but no more than what is to go out. *)
Definition through (n : fnode R) : R := Rmin (n_in n) (n_sched n * f_mw (n_inflow n)).

Lemma through_amounts n dt : 0 < dt -> f_mole (n_content n) = 0 -> 0 < n_in n -> 0 <= n_sched n -> Reps < f_mw (n_inflow n) ->
  per_time (out_mass n dt) dt = 0 /\ per_time (thru_mass n dt) dt = through n.
Proof.
  intros HD HM HI HS HW. pose proof Reps_pos as EP.
  assert (E0 : 0 <= n_sched n * dt) by nra.
  assert (E1 : out_moles n dt = 0).
  { unfold out_moles, nmin. rewrite HM. rnum. destruct (Rltb_spec 0 (n_sched n * dt)); lra. }
  assert (E2 : in_moles n dt = n_in n * dt / f_mw (n_inflow n)).
  { unfold in_moles, nmax. rnum. destruct (Rltb_spec Reps (f_mw (n_inflow n))); [|lra].
    destruct (Rltb_spec (n_in n) 0); [lra|reflexivity]. }
  assert (PT : forall m, per_time m dt = m / dt).
  { intro m. unfold per_time. rnum. destruct (Rltb_spec 0 dt); [reflexivity|lra]. }
  rewrite !PT. split; [unfold out_mass; rewrite E1; rnum; field; lra|].
  unfold thru_mass, through. rewrite E1, E2. clear E1 E2. revert HW. generalize (f_mw (n_inflow n)). intros w HW.
  unfold nmin, Rmin. rnum.
  assert (EI : n_in n * dt / w * w = n_in n * dt) by (field; lra).
  assert (HX : n_in n * dt / w <= n_sched n * dt <-> n_in n <= n_sched n * w).
  { rewrite <- EI in *. split; intro H.
    - apply (Rmult_le_compat_r w) in H; [|lra]. rewrite EI in H. nra.
    - apply (Rmult_le_reg_r w); [lra|]. rewrite EI. nra. }
  destruct (Rltb_spec (n_sched n * dt - 0) (n_in n * dt / w)) as [H|H];
  destruct (Rle_dec (n_in n) (n_sched n * w)) as [H'|H'].
  - apply HX in H'. lra.
  - field. lra.
  - field. lra.
  - exfalso. apply H'. apply HX. lra.
Qed.

Lemma set_state_more (f src : fluid R) f' : set_state f src = Ok f' ->
  f_t f' = f_t src /\ f_p f' = f_p src /\ f_mass f' = f_mass f /\ f_mole f' = f_mole f /\ f_cp f' = f_cp src.
Proof. unfold set_state. destruct (same_types f src); [|discriminate]. intro H. injection H as <-. repeat split. Qed.

Theorem C116_through : forall pw n dt, 0 < dt -> n_vol n <= 0 -> sound n -> f_mole (n_content n) = 0 ->
  0 < n_in n -> 0 <= n_sched n -> Reps < f_mw (n_inflow n) ->
  Forall (fun c => c_x c = 0 \/ Reps * Reps <= c_x c) (f_cs (n_inflow n)) ->
  through n = 0 \/ (Reps <= through n /\
    Forall (fun c => c_x c = 0 \/ Reps * Reps <= through n * c_x c) (f_cs (n_inflow n))) ->
  exists n', integrate_flows sqrt pw n dt = Ok n' /\
    kind (n_content n') = kind (n_content n) /\
    map c_x (f_cs (n_content n')) = map c_x (f_cs (n_inflow n)) /\
    f_mw (n_content n') = f_mw (n_inflow n) /\ f_p (n_content n') = f_p (n_content n) /\
    f_t (n_content n') = compute_temperature sqrt (n_inflow n) (n_heat n / n_in n) /\
    f_h (n_content n') = f_h (set_temperature (set_pressure (n_inflow n) (f_p (n_content n))) (f_t (n_content n'))) /\
    f_mass (n_content n') = f_mass (n_content n) /\ f_mole (n_content n') = 0 /\
    n_net n' = n_in n - through n /\ n_thru n' = through n /\
    f_h (n_outflow n') = f_h (n_content n') /\ f_p (n_outflow n') = f_p (n_content n) /\
    map c_x (f_cs (n_outflow n')) = map c_x (f_cs (n_inflow n)) /\
    (0 < through n -> f_w (n_outflow n') = through n).
Proof.
  intros pw n dt HD HV HS HM HI HQ HW HX HT. pose proof Reps_pos as EP.
  destruct (through_amounts n dt HD HM HI HQ HW) as [E1 E2].
  destruct HS as [SK SO ST SB SI SR].
  assert (TX : Rabs (1 - total (@c_x R) (n_inflow n)) <= fltR).
  { destruct (str_x _ SI) as [H|H]; [lra|exact H]. }
  unfold integrate_flows. cbn zeta. rewrite E1, E2.
  replace (@n0 R _ <~ 0) with false by (rnum; destruct (Rltb_spec 0 0); [lra|reflexivity]).
  replace (n0 <~ n_vol n) with false by (rnum; destruct (Rltb_spec 0 (n_vol n)); [lra|reflexivity]).
  replace (n0 <~ n_in n) with true by (rnum; destruct (Rltb_spec 0 (n_in n)); [reflexivity|lra]).
  cbn [obind]. unfold integrate_noncap. cbn zeta.
  set (i1 := set_pressure (n_inflow n) (f_p (n_content n))).
  set (i := set_temperature i1 (compute_temperature sqrt i1 (n_heat n /~ n_in n))).
  assert (EX : map c_x (f_cs i) = map c_x (f_cs (n_inflow n))).
  { unfold i, i1, set_temperature, set_pressure. cbn [f_cs]. rewrite map_map. reflexivity. }
  assert (EW : map c_w (f_cs i) = map c_w (f_cs (n_inflow n))).
  { unfold i, i1, set_temperature, set_pressure. cbn [f_cs]. rewrite map_map. reflexivity. }
  assert (EN : normalize_array (map c_x (f_cs i)) = (map c_x (f_cs i), false)).
  { destruct (C112_normalize (map c_x (f_cs i))) as [_ [_ [_ H]]]. apply H.
    - rewrite EX. rewrite Forall_map. exact HX.
    - rewrite EX. fold (total (@c_x R) (n_inflow n)). rewrite <- Rabs_Ropp.
      replace (- (total (@c_x R) (n_inflow n) - 1)) with (1 - total (@c_x R) (n_inflow n)) by ring. exact TX. }
  rewrite EN.
  assert (KI : kind i = kind (n_inflow n)) by (unfold i; rewrite set_temperature_kind; reflexivity).
  destruct (set_state_ok (n_content n) i) as [c' [Ec [K1 [W1 [H1 [F1 [X1 Y1]]]]]]]; [now rewrite KI|].
  rewrite Ec. cbn [obind fst snd]. destruct (set_state_more _ _ _ Ec) as [T2 [P2 [M2 [L2 _]]]].
  assert (CX : map c_x (f_cs c') = map c_x (f_cs (n_inflow n))) by congruence.
  assert (T3 : f_t c' = compute_temperature sqrt (n_inflow n) (n_heat n / n_in n)) by exact T2.
  assert (HH : f_h c' = f_h (set_temperature i1 (f_t c'))) by (rewrite H1, T3; reflexivity).
  destruct HT as [Z|[Z1 Z2]].
  - rewrite Z. replace (@n0 R _ <~ 0) with false by (rnum; destruct (Rltb_spec 0 0); [lra|reflexivity]).
    replace (0 <=~ @n0 R _) with true by (rnum; destruct (Rleb_spec 0 0); [reflexivity|lra]).
    destruct (set_state_ok (reset_state (n_outflow n)) c') as [o [Eo [o1 [o2 [o3 [o4 [o5 _]]]]]]].
    { now rewrite reset_kind, K1. }
    rewrite Eo. cbn [obind]. eexists. split; [reflexivity|].
    cbn [n_content n_net n_thru n_outflow].
    split; [exact K1|]. split; [exact CX|]. split; [exact W1|]. split; [exact P2|]. split; [exact T3|].
    split; [exact HH|]. split; [exact M2|]. split; [congruence|].
    split; [rnum; ring|]. split; [unfold nmin; rnum; destruct (Rltb_spec (0 + 0) (n_in n)); lra|].
    split; [exact o3|]. split; [exact P2|]. split; [|intro; lra].
    change (map c_x (f_cs o) = map c_x (f_cs (n_inflow n))). congruence.
  - replace (n0 <~ through n) with true by (rnum; destruct (Rltb_spec 0 (through n)); [reflexivity|lra]).
    assert (SRC : source c' (through n)).
    { assert (HC : Forall2 (fun c d => c_x c = c_x d /\ c_w c = c_w d) (f_cs c') (f_cs (n_inflow n))).
      { rewrite EW in Y1. revert CX Y1. generalize (f_cs c') (f_cs (n_inflow n)).
        induction l as [|c l IH]; intros [|d m] A B; try discriminate; constructor; cbn [map] in *.
        - injection A as A1 _. injection B as B1 _. auto.
        - injection A as _ A2. injection B as _ B2. auto. }
      constructor.
      - unfold total. rewrite CX. exact TX.
      - intros c Hc. assert (HDc : exists d, In d (f_cs (n_inflow n)) /\ c_x c = c_x d /\ c_w c = c_w d).
        { clear - HC Hc. induction HC as [|a b l m H1 H2 IH]; [destruct Hc|]. destruct Hc as [->|Hc].
          - exists b. split; [now left|exact H1].
          - destruct (IH Hc) as [d [Hd E]]. exists d. split; [now right|exact E]. }
        destruct HDc as [d [Hd [A1 A2]]]. rewrite A1, A2. split; [now apply (str_pos _ SI)|].
        rewrite Forall_forall in Z2. destruct (Z2 d Hd) as [E|E]; [left|now right].
        split; [exact E|]. rewrite (str_flow _ SI d Hd), E. ring. }
    destruct (C111_add (reset_state (n_outflow n)) c' (through n)) as [A1 [A2 [A3 [A4 [A5 [_ [_ [_ [A6 [A7 _]]]]]]]]]].
    { apply kind_same. now rewrite reset_kind, SO, K1. }
    { apply (types_pr (n_content n)); [|exact ST]. apply kind_pr. now rewrite reset_kind. }
    { apply reset_stream. } { exact SRC. } { exact Z1. }
    unfold add_or_throw. rewrite A1. cbn [obind].
    set (o := fst (add_state sqrt (reset_state (n_outflow n)) c' (through n))) in *.
    change (f_w (reset_state (n_outflow n))) with 0 in A3, A5. change (f_h (reset_state (n_outflow n))) with 0 in A5.
    rewrite Rplus_0_l in A3. rewrite A3 in A5.
    eexists. split; [reflexivity|]. cbn [n_content n_net n_thru n_outflow].
    split; [exact K1|]. split; [exact CX|]. split; [exact W1|]. split; [exact P2|]. split; [exact T3|].
    split; [exact HH|]. split; [exact M2|]. split; [congruence|].
    split; [rnum; ring|]. split.
    { unfold nmin. rnum. pose proof (Rmin_l (n_in n) (n_sched n * f_mw (n_inflow n))) as HL. fold (through n) in HL.
      destruct (Rltb_spec (0 + through n) (n_in n)); lra. }
    split; [change (f_h o = f_h c'); nra|]. split; [exact P2|]. split; [|intros _; exact A3].
    change (map c_x (f_cs o) = map c_x (f_cs (n_inflow n))). rewrite <- CX.
    assert (EF : map (fun x => through n * x) (map c_x (f_cs o)) = map (fun x => through n * x) (map c_x (f_cs c'))).
    { rewrite !map_map. transitivity (species_flow o).
      - apply map_ext_in. intros c Hc. rewrite (str_flow _ A2 c Hc), A3. ring.
      - rewrite A4. unfold species_flow, species_of, padd.
        assert (HL : length (f_cs (n_outflow n)) = length (f_cs c')) by (apply kind_length; congruence).
        unfold reset_state. cbn [f_cs]. rewrite map_map. clear - HL. revert HL. generalize (f_cs (n_outflow n)) (f_cs c').
        induction l as [|c l IH]; intros [|d m] HL; try discriminate; [reflexivity|].
        cbn [map combine fst snd c_w]. f_equal; [rnum; ring|]. apply IH. cbn in HL. lia. }
    revert EF. generalize (map c_x (f_cs o)) (map c_x (f_cs c')).
    induction l as [|x l IH]; intros [|y m] EF; try discriminate; [reflexivity|].
    cbn [map] in EF. injection EF as Q1 Q2. f_equal; [nra|]. now apply IH.
Qed.

(** What has come in in a steady flow leaves with the same energy. *)
Theorem C116_energy : forall pw n dt n', 0 < dt -> n_vol n <= 0 -> sound n -> f_mole (n_content n) = 0 ->
  Reps <= n_in n -> n_sched n * f_mw (n_inflow n) = n_in n -> Reps < f_mw (n_inflow n) ->
  Forall (fun c => c_x c = 0 \/ (Reps * Reps <= c_x c /\ Reps * Reps <= n_in n * c_x c)) (f_cs (n_inflow n)) ->
  integrate_flows sqrt pw n dt = Ok n' ->
  let t := compute_temperature sqrt (n_inflow n) (n_heat n / n_in n) in
  no_traces (n_inflow n) -> heat_b (n_inflow n) <> 0 -> in_range (n_inflow n) t ->
  0 <= heat_a (n_inflow n) * heat_a (n_inflow n) + 4 * heat_b (n_inflow n) * (n_heat n / n_in n) ->
  n_net n' = 0 /\ f_w (n_outflow n') = n_in n /\ f_w (n_outflow n') * f_h (n_outflow n') = n_heat n.
Proof.
  intros pw n dt n' HD HV HS HM HI HQ HW HX EI t HN HB HR HP. pose proof Reps_pos as EP.
  assert (TH : through n = n_in n) by (unfold through; rewrite HQ; unfold Rmin; destruct (Rle_dec _ _); reflexivity).
  assert (HQ0 : 0 <= n_sched n) by nra.
  assert (HX1 : Forall (fun c => c_x c = 0 \/ Reps * Reps <= c_x c) (f_cs (n_inflow n))).
  { apply (Forall_impl _ (fun c (H : c_x c = 0 \/ _ /\ _) => match H with or_introl a => or_introl a | or_intror (conj b _) => or_intror b end) HX). }
  assert (HX2 : Forall (fun c => c_x c = 0 \/ Reps * Reps <= n_in n * c_x c) (f_cs (n_inflow n))).
  { apply (Forall_impl _ (fun c (H : c_x c = 0 \/ _ /\ _) => match H with or_introl a => or_introl a | or_intror (conj _ b) => or_intror b end) HX). }
  destruct (C116_through pw n dt HD HV HS HM ltac:(lra) HQ0 HW HX1) as
    [n2 [E2 [_ [_ [_ [_ [ET [EH [_ [_ [NN [_ [OH [_ [_ OW]]]]]]]]]]]]]]].
  { rewrite TH. right. auto. }
  rewrite EI in E2. injection E2 as <-. rewrite TH in NN, OW. split; [lra|]. specialize (OW ltac:(lra)).
  split; [exact OW|]. rewrite OW, OH, EH, ET. fold t.
  destruct (C110_set_temperature (set_pressure (n_inflow n) (f_p (n_content n))) t HN) as [H1 _]. rewrite H1.
  change (compute_h (set_pressure (n_inflow n) (f_p (n_content n))) t) with (compute_h (n_inflow n) t).
  unfold t. rewrite (C110_enthalpy _ _ HB HP HR). field. lra.
Qed.

(** ** C117: the pressure correction *)
(** The pressure of the contents at their density less the node's. *)
Definition pressure_error (n : fnode R) : R :=
  compute_p (n_content n) (f_t (n_content n)) (f_mass (n_content n) / n_vol n) - f_p (n_content n).
Theorem C117_correction : forall n, 0 < n_vol n ->
  let c := fst (pressure_correction n) in let g := snd (pressure_correction n) in
  Reps <= g <= 1 /\
  (Rabs (pressure_error n) <= / 10 ^ 11 -> c = 0) /\
  (/ 10 ^ 11 < Rabs (pressure_error n) -> c = pressure_error n * g) /\
  Rabs c <= Rabs (pressure_error n) /\ 0 <= c * pressure_error n /\
  (pressure_error n * n_pcorr n < 0 -> g = Rmax Reps (Rmin 1 (n_gain n / 2))) /\
  (0 <= pressure_error n * n_pcorr n -> g = Rmax Reps (Rmin 1 (n_gain n * (101 / 100)))).
Proof.
  intros n HV. cbn zeta. unfold pressure_correction. pose proof Reps_pos as EP. pose proof Reps_small as ES.
  replace (n0 <~ n_vol n) with true by (rnum; destruct (Rltb_spec 0 (n_vol n)); [reflexivity|lra]).
  change (compute_p (n_content n) (f_t (n_content n)) (f_mass (n_content n) /~ n_vol n) -~ f_p (n_content n))
    with (pressure_error n). generalize (pressure_error n). intro e. cbn zeta. cbn [fst snd].
  assert (E1 : (err_threshold : R) = / 10 ^ 11).
  { unfold err_threshold. cbn [ndec RNum]. unfold Rdec. cbn [Z.leb Z.compare]. cbn. lra. }
  rewrite E1. generalize (n_gain n), (n_pcorr n). intros g0 pc.
  assert (LR : forall x, limit_range neps x (n1 : R) = Rmax Reps (Rmin 1 x)).
  { intro x. unfold limit_range, nmax, nmin, Rmax, Rmin. rnum.
    destruct (Rltb_spec 1 x); destruct (Rle_dec 1 x); try lra.
    - destruct (Rltb_spec 1 Reps); [lra|]. destruct (Rle_dec Reps 1); lra.
    - destruct (Rltb_spec x Reps); destruct (Rle_dec Reps 1); destruct (Rle_dec Reps x); lra.
    - destruct (Rltb_spec x Reps); destruct (Rle_dec Reps x); lra. }
  rewrite LR.
  set (g := Rmax Reps (Rmin 1 (if e *~ pc <~ n0 then g0 *~ ndec 5 (-1) else g0 *~ ndec 101 (-2)))).
  assert (HG : Reps <= g <= 1).
  { unfold g, Rmax, Rmin. generalize (if e *~ pc <~ n0 then g0 *~ ndec 5 (-1) else g0 *~ ndec 101 (-2)). intro y.
    destruct (Rle_dec 1 y); destruct (Rle_dec Reps _); lra. }
  assert (HG1 : e * pc < 0 -> g = Rmax Reps (Rmin 1 (g0 / 2))).
  { intro H. unfold g. rnum. destruct (Rltb_spec (e * pc) 0); [|lra]. f_equal. f_equal. unfold Rdec. cbn. lra. }
  assert (HG2 : 0 <= e * pc -> g = Rmax Reps (Rmin 1 (g0 * (101 / 100)))).
  { intro H. unfold g. rnum. destruct (Rltb_spec (e * pc) 0); [lra|]. reflexivity. }
  clearbody g. change (nabs e) with (Rabs e). change (e *~ g) with (e * g).
  set (th := / 10 ^ 11).
  destruct (th <~ Rabs e) eqn:EC; rnum; unfold Rltb in EC; destruct (Rlt_dec th (Rabs e)) as [HE|HE]; try discriminate.
  - split; [exact HG|]. split; [intro; lra|]. split; [intros _; reflexivity|].
    split; [rewrite Rabs_mult, (Rabs_right g) by lra; pose proof (Rabs_pos e); nra|]. split; [nra|]. split; assumption.
  - split; [exact HG|]. split; [intros _; reflexivity|]. split; [intro; lra|].
    split; [rewrite Rabs_R0; apply Rabs_pos|]. split; [lra|]. split; assumption.
Qed.
Theorem C117_none : forall n, n_vol n <= 0 -> pressure_correction n = (0, n_gain n).
Proof.
  intros n HV. unfold pressure_correction. rnum. destruct (Rltb_spec 0 (n_vol n)); [lra|reflexivity].
Qed.

(** ** C118: changes of volume *)
Theorem C118_init : forall (n : fnode R) v,
  (v < 0 -> init_volume n v = Throws) /\
  (0 <= v -> exists n', init_volume n v = Ok n' /\ n_vol n' = v /\ n_pvol n' = v /\
     f_mass (n_content n') = f_rho (n_content n) * v /\
     map c_x (f_cs (n_content n')) = map c_x (f_cs (n_content n)) /\
     mass_error (n_content n') v = 0).
Proof.
  intros n v. unfold init_volume. split; intro H.
  - rnum. destruct (Rltb_spec v 0); [reflexivity|lra].
  - replace (v <~ n0) with false by (rnum; destruct (Rltb_spec v 0); [lra|reflexivity]).
    eexists. split; [reflexivity|]. cbn [with_volume n_vol n_pvol n_content]. split; [reflexivity|]. split; [reflexivity|].
    split; [reflexivity|]. split; [unfold node_mass, set_mass; cbn [f_cs]; rewrite map_map; reflexivity|].
    unfold mass_error, node_mass, set_mass. cbn [f_mass f_rho]. rnum. ring.
Qed.
(** A volume that is to grow or shrink keeps the mass, and the flows that stand for the
    compression come to the difference in the end. *)
Fixpoint resize (n : fnode R) (vs : list R) : outcome (list R * fnode R) :=
  match vs with
  | [] => Ok ([], n)
  | v :: vs => obind (set_volume n v) (fun n =>
      let (x, n) := compression n in
      obind (resize n vs) (fun r => Ok (x :: fst r, snd r)))
  end.
Theorem C118_resize : forall vs n, 0 < n_pvol n -> Forall (fun v => 0 < v) vs ->
  exists xs n', resize n vs = Ok (xs, n') /\ n_content n' = n_content n /\
    n_pvol n' = last vs (n_pvol n) /\
    rsum xs = f_rho (n_content n) / f_mw (n_content n) * (n_pvol n - n_pvol n').
Proof.
  induction vs as [|v vs IH]; intros n HP HV.
  - exists [], n. repeat split. unfold rsum. cbn. ring.
  - inversion HV as [|? ? V1 V2]; subst. cbn [resize].
    assert (ES : set_volume n v = Ok (with_volume n (n_content n) v (n_pvol n))).
    { unfold set_volume. rnum. destruct (Rltb_spec v 0); [lra|]. unfold Reqb.
      destruct (Req_EM_T 0 v); [lra|]. destruct (Req_EM_T 0 (n_pvol n)); [lra|]. reflexivity. }
    rewrite ES. cbn [obind]. unfold compression. cbn [with_volume n_content n_vol n_pvol].
    set (n1 := with_volume _ _ _ _).
    destruct (IH n1 V1 V2) as [xs [n' [E1 [E2 [E3 E4]]]]]. rewrite E1. cbn [obind fst snd].
    exists (f_rho (n_content n) *~ (n_pvol n -~ v) /~ f_mw (n_content n) :: xs), n'. split; [reflexivity|].
    split; [exact E2|]. split.
    + rewrite E3. change (n_pvol n1) with v. destruct vs; [reflexivity|]. clear. revert r. induction vs as [|w vs IH]; intro r; [reflexivity|].
      cbn [last] in *. apply IH.
    + change (rsum (?a :: xs)) with (a + rsum xs). rewrite E4. change (n_pvol n1) with v.
      change (n_content n1) with (n_content n). rnum. unfold Rdiv. ring.
Qed.
(** A volume that comes from or goes to nothing brings or takes the mass with it. *)
Theorem C118_vanish : forall (n : fnode R) v, 0 <= v -> v = 0 \/ n_pvol n = 0 ->
  exists n', set_volume n v = Ok n' /\ n_vol n' = v /\ n_pvol n' = v /\
    f_mass (n_content n') = f_rho (n_content n) * v /\ fst (compression n') = 0.
Proof.
  intros n v HV HZ. destruct (C118_init n v) as [_ H]. destruct (H HV) as [n' [E [H1 [H2 [H3 _]]]]]. exists n'.
  split; [|split; [exact H1|split; [exact H2|split; [exact H3|]]]].
  - unfold set_volume. rnum. destruct (Rltb_spec v 0); [lra|]. unfold Reqb.
    destruct (Req_EM_T 0 v); [exact E|]. destruct (Req_EM_T 0 (n_pvol n)); [exact E|]. lra.
  - unfold compression. cbn [fst]. rewrite H1, H2. rnum. unfold Rdiv. ring.
Qed.

(** ** Examples *)
(** A kilogram a second of the mixture through a node without volume. *)
Definition exH : fluid R := set_temperature exR 300.
Definition exT : fnode R := mkfnode (set_mass exH 0) exH exH 0 0 2854500 0 0 0 0 0 0 100 300 0 0 1 1 1 (3 / 8) 0 0.
Example exT_sound : sound exT /\ f_mole (n_content exT) = 0 /\ through exT = 1.
Proof.
  pose proof exR_balanced as B. pose proof exR_types as T.
  assert (T1 : real_types exH) by (unfold real_types, exH, set_temperature; cbn [f_cs]; repeat constructor; cbn; lra).
  assert (B1 : balanced exH) by apply (C109_keep exR T B).
  assert (B2 : balanced (set_mass exH 0)) by apply (C109_keep exH T1 B1).
  split; [|split].
  - constructor; cbn [exT n_content n_inflow n_outflow n_in]; try reflexivity; try assumption.
    { apply (types_pr exH); [reflexivity|exact T1]. }
    constructor; [cbn; lra|apply B1|intros c Hc; now apply (bal_pos _ B1)|right; apply B1].
  - cbn [exT n_content set_mass f_mole]. rnum. unfold Rdiv. ring.
  - unfold through. cbn [exT n_in n_sched n_inflow]. change (f_mw exH) with (8 / 3). unfold Rmin. destruct (Rle_dec _ _); lra.
Qed.
Example exT_energy : exists n', integrate_flows sqrt (fun _ _ => 0) exT 1 = Ok n' /\ n_net n' = 0 /\
  f_w (n_outflow n') = 1 /\ f_w (n_outflow n') * f_h (n_outflow n') = 2854500.
Proof.
  destruct exT_sound as [S [M TH]]. pose proof Reps_pos as EP. pose proof Reps_small as ES. pose proof eps_lt_flt as EF. pose proof half_big as HB.
  assert (FX : Forall (fun c => c_x c = 0 \/ (Reps * Reps <= c_x c /\ Reps * Reps <= n_in exT * c_x c)) (f_cs (n_inflow exT))).
  { cbn. repeat (apply Forall_cons || apply Forall_nil); cbn; right; split; nra. }
  assert (FX1 : Forall (fun c => c_x c = 0 \/ Reps * Reps <= c_x c) (f_cs (n_inflow exT))).
  { cbn. repeat (apply Forall_cons || apply Forall_nil); cbn; right; nra. }
  assert (FX2 : Forall (fun c => c_x c = 0 \/ Reps * Reps <= through exT * c_x c) (f_cs (n_inflow exT))).
  { rewrite TH. cbn. repeat (apply Forall_cons || apply Forall_nil); cbn; right; nra. }
  assert (HA : heat_a exH = 6500 /\ heat_b exH = 10 + / 20 /\ in_range exH 300 /\ no_traces exH).
  { unfold heat_a, heat_b, in_range, no_traces, total, rsum. cbn.
    destruct (Rlt_dec Reps (Rabs (1 / 2))); [|contradiction]. split; [lra|]. split; [lra|]. split.
    - repeat constructor; cbn; lra.
    - repeat (apply Forall_cons || apply Forall_nil); cbn; right; (split; [exact HB|]); rewrite Rabs_right; lra. }
  destruct HA as [A1 [A2 [A3 A4]]].
  assert (ET : compute_temperature sqrt exH (2854500 / 1) = 300).
  { replace (2854500 / 1) with (compute_h exH 300) by (rewrite (compute_h_R _ _ A3), A1, A2; lra).
    apply C110_temperature; rewrite ?A1, ?A2; try lra. exact A3. }
  assert (HW : Reps < f_mw (n_inflow exT)) by (change (f_mw (n_inflow exT)) with (8 / 3); lra).
  destruct (C116_through (fun _ _ => 0) exT 1) as [n' [E _]]; try assumption; try (cbn; lra).
  { right. split; [rewrite TH; lra|exact FX2]. }
  exists n'. split; [exact E|].
  apply (C116_energy (fun _ _ => 0) exT 1 n'); try assumption; try (cbn; lra).
  - change (n_inflow exT) with exH. rewrite A2. lra.
  - change (n_inflow exT) with exH. change (n_heat exT / n_in exT) with (2854500 / 1). rewrite ET. exact A3.
  - change (n_inflow exT) with exH. change (n_heat exT / n_in exT) with (2854500 / 1). rewrite A1, A2. lra.
Qed.
(** An error of pressure of 1, with the sign of the last correction. *)
Example ex_correction : exists n, 0 < n_vol n /\ / 10 ^ 11 < Rabs (pressure_error n) /\ 0 <= pressure_error n * n_pcorr n.
Proof.
  exists (mkfnode (set_pressure (mkfluid 300 0 0 0 0 (Some 0%nat) 1 1 1 1 1 1 1 1 []) 1) exR exR 1 1 0 0 0 0 0 0 0 1 300 0 (-1) 1 0 0 0 0 0).
  unfold pressure_error, compute_p. cbn [n_content n_vol n_pcorr set_pressure f_cs f_p f_t f_mass]. rewrite xsum_R. unfold rsum. cbn [map fold_right].
  split; [lra|]. rewrite Rabs_left by lra. split; lra.
Qed.
Example ex_resize : exists xs n', resize (mkfnode exR exR exR 1 1 0 0 0 0 0 0 0 100 300 0 0 1 0 0 0 0 0) [2; 3] = Ok (xs, n') /\ rsum xs = - (3 / 4).
Proof.
  destruct (C118_resize [2; 3] (mkfnode exR exR exR 1 1 0 0 0 0 0 0 0 100 300 0 0 1 0 0 0 0 0)) as [xs [n' [E1 [E2 [E3 E4]]]]].
  - cbn. lra.
  - repeat constructor; lra.
  - exists xs, n'. split; [exact E1|]. rewrite E4, E3. cbn. lra.
Qed.

Print Assumptions C116_through.
Print Assumptions C116_energy.
Print Assumptions C117_correction.
Print Assumptions C117_none.
Print Assumptions C118_init.
Print Assumptions C118_resize.
Print Assumptions C118_vanish.
