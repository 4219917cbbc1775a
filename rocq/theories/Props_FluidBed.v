(** C180-C182: the compounds of an adsorption bed, the bed, and the gas side of a separator. *)
From Coq Require Import Floats.
From Coq Require Import Reals Lra Lia List Arith Bool ZArith.
From Verif Require Import Num Ord MathUtil Props_Math Spec_Valve Props_Valve Props_Thermal FluidFlow Props_FluidFlow FluidTrace Props_FluidTrace FluidSorb Props_FluidSorb Props_FluidSource.
Import ListNotations.
Local Open Scope R_scope.

(** ** C180: one compound *)
Notation sorbR := (comp_sorb powR).
Lemma megaR : (mega : R) = 1000000.
Proof. unfold mega. rnum. unfold Rdec. cbn [Z.leb Z.compare]. change (10 ^ 0)%Z with 1%Z. lra. Qed.
Lemma powR_unit b e : 0 <= b <= 1 -> 1 <= e -> 0 <= powR b e <= 1.
Proof.
  intros B E. split; [apply powR_nonneg|]. unfold powR. destruct (Rlt_dec 0 b) as [P|P]; [|lra].
  unfold Rpower. rewrite <- exp_0. destruct (Req_dec b 1) as [->|Q]; [rewrite ln_1, Rmult_0_r; lra|].
  left. apply exp_increasing. assert (L : ln b < 0) by (rewrite <- ln_1; apply ln_increasing; lra). nra.
Qed.
(** The rate the stream and the bed's temperature ask for. *)
Definition partial (c : @comp R) (f : @stream R) (p : R) : R :=
  p * (if p_trace c then tc_frac f (p_index c) else nth (p_index c) (st_mole f) 0).
Definition asked (c : @comp R) (f : @stream R) (t p mdot r : R) : Prop :=
  let eff := within (-1) (p_c0 c + p_c1 c * t) 1 in
  let pp := partial c f p in
  ((pp < p_dpp c \/ eff < 0) -> r = - (p_dfac c * Rabs eff * Rmax 0 (p_dpp c - pp))) /\
  (p_dpp c <= pp -> 0 <= eff ->
     (p_trace c = true -> 100 * Reps < Rabs mdot -> r = eff * tc_mass f (p_index c)) /\
     (p_trace c = false -> exists x, nth_error (st_mass f) (p_index c) = Some x /\ r = eff * (x * Rabs mdot))).
(** The tapers, the dependency and the malfunction. *)
Definition slowed (c : @comp R) (dep : option R) (fill r : R) : R :=
  (if p_taper c then (if Rlt_dec 0 r then 1 - powR (Rmax (1 / 10) fill) (within 1 (p_bexp c) 100) else fill) else 1) *
  (match dep with Some d => if Rlt_dec 0 r then d else 1 - d | None => 1 end) *
  (if p_malf c then p_mval c else 1).
Lemma wanted_asked (c : @comp R) f t p mdot r : comp_wanted c f t p mdot = Some r -> asked c f t p mdot r.
Proof.
  unfold comp_wanted, asked. cbv zeta. change (nopp n1 : R) with (- (1)).
  replace (limit_range (- (1)) (p_c0 c +~ p_c1 c *~ t) n1) with (within (-1) (p_c0 c + p_c1 c * t) 1)
    by (symmetry; apply (limit_within (-1) (p_c0 c + p_c1 c * t) 1); lra).
  set (e := within (-1) (p_c0 c + p_c1 c * t) 1). clearbody e. fold (partial c f p).
  change (p *~ (if p_trace c then tc_frac f (p_index c) else nth (p_index c) (st_mole f) n0)) with (partial c f p).
  set (pp := partial c f p). clearbody pp. change (pp <~ p_dpp c) with (Rltb pp (p_dpp c)). change (e <~ n0) with (Rltb e 0).
  assert (D : nmin n0 (pp -~ p_dpp c) *~ p_dfac c *~ nabs e = - (p_dfac c * Rabs e * Rmax 0 (p_dpp c - pp))).
  { rewrite nminR. change (Rmin 0 (pp - p_dpp c) * p_dfac c * Rabs e = - (p_dfac c * Rabs e * Rmax 0 (p_dpp c - pp))).
    replace (Rmin 0 (pp - p_dpp c)) with (- Rmax 0 (p_dpp c - pp)) by (mm). ring. }
  destruct (Rltb_spec pp (p_dpp c)) as [A|A]; destruct (Rltb_spec e 0) as [B|B]; cbn [orb].
  1-3: intro H; injection H as <-; split; [intros _; exact D|intros; lra].
  intro H. split; [intros [Q|Q]; lra|]. intros _ _. unfold comp_thru in H. rewrite sorb_limitR in H.
  change (100 * Reps <~ nabs mdot) with (Rltb (100 * Reps) (Rabs mdot)) in H.
  split; intro T.
  - intro M. rewrite T, (Rltb_true _ _ M) in H. cbn [andb] in H. injection H as <-. reflexivity.
  - rewrite T in H. cbn [andb] in H. destruct (nth_error (st_mass f) (p_index c)) as [x|]; [|discriminate].
    injection H as <-. exists x. split; reflexivity.
Qed.
Lemma shape_eq (c : @comp R) dep fill r : 0 <= fill <= 1 -> comp_shape powR c dep fill r = r * slowed c dep fill r.
Proof.
  intro F. unfold comp_shape, slowed. cbv zeta.
  replace (limit_range n1 (p_bexp c) (ndec 100 0)) with (within 1 (p_bexp c) 100).
  2: { symmetry. replace (ndec 100 0 : R) with 100 by (rnum; unfold Rdec; cbn; lra). apply (limit_within 1 (p_bexp c) 100). lra. }
  replace (nmax (ndec 1 (-1)) fill : R) with (Rmax (1 / 10) fill).
  2: { rewrite nmaxR. reflexivity. }
  assert (P : 0 <= powR (Rmax (1 / 10) fill) (within 1 (p_bexp c) 100) <= 1).
  { apply powR_unit; [mm|unfold within; mm]. }
  set (q := powR (Rmax (1 / 10) fill) (within 1 (p_bexp c) 100)) in *. clearbody q.
  change (n0 <~ r) with (Rltb 0 r).
  set (tf := if p_taper c then if Rlt_dec 0 r then 1 - q else fill else 1).
  assert (T : (if p_taper c then if Rltb 0 r then r *~ (n1 -~ q) else r *~ fill else r) = r * tf).
  { unfold tf. destruct (p_taper c); [|rnum; ring]. destruct (Rltb_spec 0 r), (Rlt_dec 0 r); try lra; reflexivity. }
  rewrite T. assert (TN : 0 <= tf) by (unfold tf; destruct (p_taper c); [destruct (Rlt_dec 0 r); lra|lra]). clearbody tf. clear T.
  set (df := match dep with Some d => if Rlt_dec 0 r then d else 1 - d | None => 1 end).
  assert (E : (match dep with Some d => if n0 <~ r * tf then r * tf *~ d else r * tf *~ (n1 -~ d) | None => r * tf end) = r * tf * df).
  { unfold df. destruct dep as [d|]; [|ring]. change (n0 <~ r * tf) with (Rltb 0 (r * tf)).
    destruct (Rltb_spec 0 (r * tf)) as [A|A]; destruct (Rlt_dec 0 r) as [B|B]; rnum; try reflexivity.
    - exfalso. assert (r * tf <= 0) by nra. lra.
    - assert (Z : r * tf = 0) by nra. rewrite Z. ring. }
  rewrite E. clearbody df. destruct (p_malf c); rnum; ring.
Qed.
Lemma cap_eq (c : @comp R) dt held r : 0 < dt -> 0 <= held <= p_max c ->
  comp_cap c dt held r = within (- held / dt) r ((p_max c - held) / dt).
Proof.
  intros D H. unfold comp_cap. change (n0 <~ r) with (Rltb 0 r). rewrite nminR, nmaxR.
  change ((p_max c -~ held) /~ dt) with ((p_max c - held) / dt). change (nopp held /~ dt) with (- held / dt).
  assert (I : 0 < / dt) by (apply Rinv_0_lt_compat; exact D).
  assert (A : 0 <= (p_max c - held) / dt) by (unfold Rdiv; nra).
  assert (B : - held / dt <= 0) by (unfold Rdiv; nra).
  set (a := (p_max c - held) / dt) in *. clearbody a. set (b := - held / dt) in *. clearbody b.
  unfold within. destruct (Rltb_spec 0 r); mm.
Qed.
(** The rate of sorption: what is asked, slowed, and kept to the room and the mass there is. *)
Theorem C180_rate : forall (c : @comp R) dep f dt t p mdot s s', 0 < dt -> 0 <= q_ads s <= p_max c -> 0 <= q_fill s <= 1 ->
  sorbR c dep f dt t p mdot s = Some s' ->
  exists r, asked c f t p mdot r /\
    q_rate s' = within (- q_ads s / dt) (r * slowed c dep (q_fill s) r) ((p_max c - q_ads s) / dt) /\
    q_heat s' = - p_heat c * q_rate s' * 1000000 / p_w c.
Proof.
  intros c dep f dt t p mdot s s' D H F E. unfold comp_sorb in E.
  destruct (comp_wanted c f t p mdot) as [r|] eqn:W; [|discriminate].
  rewrite shape_eq, cap_eq in E by assumption. exists r. split; [apply wanted_asked, W|].
  set (k := within (- q_ads s / dt) (r * slowed c dep (q_fill s) r) ((p_max c - q_ads s) / dt)) in *. clearbody k.
  injection E as <-. cbn [q_rate q_heat]. split; [reflexivity|].
  reflexivity.
Qed.
Print Assumptions C180_rate.
(** The slowing is a fraction, so a bed neither takes more than is there nor turns round. *)
Theorem C180_slowed : forall (c : @comp R) dep fill r, 0 <= fill <= 1 -> (forall d, dep = Some d -> 0 <= d <= 1) -> 0 <= p_mval c <= 1 ->
  0 <= slowed c dep fill r <= 1.
Proof.
  intros c dep fill r F DP M. unfold slowed.
  assert (P : 0 <= powR (Rmax (1 / 10) fill) (within 1 (p_bexp c) 100) <= 1).
  { apply powR_unit; [mm|unfold within; mm]. }
  set (q := powR (Rmax (1 / 10) fill) (within 1 (p_bexp c) 100)) in *. clearbody q.
  assert (A : 0 <= (if p_taper c then if Rlt_dec 0 r then 1 - q else fill else 1) <= 1) by (destruct (p_taper c); [destruct (Rlt_dec 0 r); lra|lra]).
  assert (B : 0 <= match dep with Some d => if Rlt_dec 0 r then d else 1 - d | None => 1 end <= 1).
  { destruct dep as [d|]; [specialize (DP d eq_refl); destruct (Rlt_dec 0 r); lra|lra]. }
  assert (C : 0 <= (if p_malf c then p_mval c else 1) <= 1) by (destruct (p_malf c); lra).
  set (a := if p_taper c then if Rlt_dec 0 r then 1 - q else fill else 1) in *. clearbody a.
  set (b := match dep with Some d => if Rlt_dec 0 r then d else 1 - d | None => 1 end) in *. clearbody b.
  set (g := if p_malf c then p_mval c else 1) in *. clearbody g.
  assert (X : 0 <= a * b <= 1) by (split; nra). split; nra.
Qed.
Print Assumptions C180_slowed.
Theorem C180_limits : forall (c : @comp R) dep f dt t p mdot s s' x, 0 < dt -> 0 <= q_ads s <= p_max c -> 0 <= q_fill s <= 1 ->
  (forall d, dep = Some d -> 0 <= d <= 1) -> 0 <= p_mval c <= 1 -> 0 <= p_dfac c ->
  p_trace c = false -> nth_error (st_mass f) (p_index c) = Some x -> 0 <= x ->
  sorbR c dep f dt t p mdot s = Some s' ->
  (p_dpp c <= partial c f p -> 0 <= q_rate s' <= x * Rabs mdot) /\
  (partial c f p < p_dpp c -> - (p_dfac c * (p_dpp c - partial c f p)) <= q_rate s' <= 0).
Proof.
  intros c dep f dt t p mdot s s' x D H F DP M DF TR X XP E.
  destruct (C180_rate c dep f dt t p mdot s s' D H F E) as (r & (A1 & A2) & R & _). rewrite R.
  pose proof (C180_slowed c dep (q_fill s) r F DP M) as S. set (g := slowed c dep (q_fill s) r) in *. clearbody g.
  assert (I : 0 < / dt) by (apply Rinv_0_lt_compat; exact D).
  assert (U : 0 <= (p_max c - q_ads s) / dt) by (unfold Rdiv; nra).
  assert (V : - q_ads s / dt <= 0) by (unfold Rdiv; nra).
  set (u := (p_max c - q_ads s) / dt) in *. clearbody u. set (v := - q_ads s / dt) in *. clearbody v.
  set (e := within (-1) (p_c0 c + p_c1 c * t) 1) in *. assert (EB : -1 <= e <= 1) by (unfold e, within; mm). clearbody e.
  set (pp := partial c f p) in *. clearbody pp. pose proof (Rabs_pos mdot) as MP.
  assert (XM : 0 <= x * Rabs mdot) by nra.
  assert (EA : 0 <= Rabs e <= 1) by (split; [apply Rabs_pos|apply Rabs_le; lra]).
  split; intro P.
  - assert (Q : 0 <= r <= x * Rabs mdot \/ r = 0).
    { destruct (Rlt_dec e 0) as [N|N].
      - right. rewrite A1 by (right; exact N). rewrite Rmax_left by lra. ring.
      - left. destruct (A2 P ltac:(lra)) as [_ A3]. destruct (A3 TR) as (x' & X' & ->). rewrite X in X'. injection X' as <-.
        split; nra. }
    assert (Z : 0 <= r * g <= x * Rabs mdot) by (destruct Q as [Q| ->]; [split; nra|rewrite Rmult_0_l; lra]).
    set (y := r * g) in *. clearbody y. set (xm := x * Rabs mdot) in *. clearbody xm. unfold within. mm.
  - assert (Q : - (p_dfac c * (p_dpp c - pp)) <= r <= 0).
    { rewrite A1 by (left; exact P). rewrite Rmax_right by lra.
      assert (0 <= p_dfac c * (p_dpp c - pp)) by nra.
      replace (p_dfac c * Rabs e * (p_dpp c - pp)) with (Rabs e * (p_dfac c * (p_dpp c - pp))) by ring. split; nra. }
    set (b := p_dfac c * (p_dpp c - pp)) in *. clearbody b.
    assert (Z : - b <= r * g <= 0) by (split; nra). set (y := r * g) in *. clearbody y. unfold within. mm.
Qed.
Print Assumptions C180_limits.
(** The mass held follows the rate to within the rounding at the ends, and stays between nothing
    and the capacity. *)
Theorem C180_held : forall (c : @comp R) dep f dt t p mdot s s', 0 < dt -> Reps <= p_max c -> 0 <= q_ads s <= p_max c ->
  sorbR c dep f dt t p mdot s = Some s' ->
  0 <= q_ads s' <= p_max c /\ q_fill s' = q_ads s' / p_max c /\ 0 <= q_fill s' <= 1 /\
  Rabs (q_ads s' - (q_ads s + q_rate s' * dt)) < Reps /\
  (Reps <= q_ads s + q_rate s' * dt <= p_max c - Reps -> q_ads s' = q_ads s + q_rate s' * dt).
Proof.
  intros c dep f dt t p mdot s s' D MX H E. unfold comp_sorb in E. pose proof Reps_pos as RP.
  destruct (comp_wanted c f t p mdot) as [r|]; [|discriminate].
  rewrite cap_eq in E by assumption. set (r' := comp_shape powR c dep (q_fill s) r) in *. clearbody r'.
  set (k := within (- q_ads s / dt) r' ((p_max c - q_ads s) / dt)) in *.
  assert (I : 0 < / dt) by (apply Rinv_0_lt_compat; exact D).
  assert (K : 0 <= q_ads s + k * dt <= p_max c).
  { assert (K1 : - q_ads s / dt <= k <= (p_max c - q_ads s) / dt).
    { unfold k, within. assert (- q_ads s / dt <= (p_max c - q_ads s) / dt) by (unfold Rdiv; nra).
      set (a := - q_ads s / dt) in *. clearbody a. set (b := (p_max c - q_ads s) / dt) in *. clearbody b. mm. }
    assert (K2 : - q_ads s / dt * dt = - q_ads s) by (field; lra).
    assert (K3 : (p_max c - q_ads s) / dt * dt = p_max c - q_ads s) by (field; lra).
    destruct K1 as [K1 K1']. apply (Rmult_le_compat_r dt) in K1; [|lra]. apply (Rmult_le_compat_r dt) in K1'; [|lra]. lra. }
  clearbody k. injection E as <-. cbn [q_ads q_fill q_rate]. unfold fill_of. rewrite nmaxR. change (neps : R) with Reps.
  rewrite (Rmax_left (p_max c) Reps) by exact MX. change (q_ads s +~ k *~ dt) with (q_ads s + k * dt).
  set (m := q_ads s + k * dt) in *. clearbody m.
  assert (S : 0 <= comp_snap c m <= p_max c /\ Rabs (comp_snap c m - m) < Reps /\ (Reps <= m <= p_max c - Reps -> comp_snap c m = m)).
  { unfold comp_snap. change (m <~ neps) with (Rltb m Reps). change (p_max c -~ m <~ neps) with (Rltb (p_max c - m) Reps).
    change (n0 : R) with 0. destruct (Rltb_spec m Reps); [|destruct (Rltb_spec (p_max c - m) Reps)]; (split; [lra|]); split.
    1,3,5: unfold Rabs; destruct (Rcase_abs _); lra. all: intro; lra. }
  set (y := comp_snap c m) in *. clearbody y. destruct S as (S1 & S2 & S3).
  split; [exact S1|]. split; [reflexivity|]. split; [|split; [exact S2|exact S3]].
  change (y /~ p_max c) with (y / p_max c). assert (J : 0 < / p_max c) by (apply Rinv_0_lt_compat; lra).
  split; [unfold Rdiv; nra|]. apply (Rmult_le_reg_r (p_max c)); [lra|]. unfold Rdiv. rewrite Rmult_assoc, Rinv_l by lra. lra.
Qed.
Print Assumptions C180_held.
Theorem C180_init : forall (c : @comp R) m, comp_valid c m = true <->
  Reps <= p_max c /\ 0 <= p_dfac c /\ 0 <= m <= p_max c /\ 0 <= p_mval c <= 1 /\ 1 <= p_bexp c <= 100.
Proof.
  intros c m. unfold comp_valid, is_in_range. replace (ndec 100 0 : R) with 100 by (rnum; unfold Rdec; cbn; lra).
  rnum. rewrite !andb_true_iff, !negb_true_iff. split.
  - intros ((((A & B) & C & C') & D & D') & E & E'). rcases; repeat split; lra.
  - intros (A & B & C & D & E). rcases; repeat split; try reflexivity; lra.
Qed.
Print Assumptions C180_init.
Definition c_o2 : @comp R := mkcomp false 0 32 (1 / 2) 0 10 1 1 100 false 1 None false 1.
Definition s_one : @cst R := mkcst 5 (1 / 2) 0 0.
Definition f_one : @stream R := mkstream [1] [1] [mkcell 20 0 0; mkcell 30 (1 / 10) (1 / 1000)].
Lemma thru_o2 dt : sorbR c_o2 None f_one dt 300 100 2 s_one <> None.
Proof.
  unfold comp_sorb, comp_wanted, comp_thru. cbn [p_trace c_o2 p_index st_mass f_one nth_error andb].
  match goal with |- context [if ?b then _ else _] => destruct b end; discriminate.
Qed.
Example C180_nonvacuous : comp_valid c_o2 5 = true /\ 0 <= q_ads s_one <= p_max c_o2 /\ 0 <= q_fill s_one <= 1 /\
  exists s', sorbR c_o2 None f_one 1 300 100 2 s_one = Some s'.
Proof.
  pose proof Reps_small. split; [apply C180_init; cbn; lra|]. split; [cbn; lra|]. split; [cbn; lra|].
  pose proof (thru_o2 1) as T. destruct (sorbR c_o2 None f_one 1 300 100 2 s_one) as [s'|]; [exists s'; reflexivity|congruence].
Qed.
(** A trace compound could be updated whatever the flow; without flow its number is taken for that
    of a fluid, and the update throws when there is no such fluid. *)
Theorem C180_flowless_refuted : exists (c : @comp R) f dt t p s,
  comp_valid c (q_ads s) = true /\ p_trace c = true /\ (p_index c < length (st_tc f))%nat /\ Reps < dt /\ q_fill s = q_ads s / p_max c /\
  sorbR c None f dt t p 0 s = None.
Proof.
  pose proof Reps_small as RS. pose proof Reps_pos as RP.
  exists (mkcomp true 1 30 (1 / 2) 0 10 0 1 100 false 1 None false 1), f_one, 1, 300, 100, s_one.
  split; [apply C180_init; cbn; lra|]. split; [reflexivity|]. split; [cbn; lia|]. split; [lra|]. split; [cbn; lra|].
  unfold comp_sorb, comp_wanted. cbn [p_trace p_index p_dpp p_c0 p_c1 p_dfac].
  replace (limit_range (nopp n1) (1 / 2 +~ 0 *~ 300) n1) with (1 / 2 : R).
  2: { symmetry. change (limit_range (-1) (1 / 2 + 0 * 300) 1 = 1 / 2). rewrite (limit_within (-1) (1 / 2 + 0 * 300) 1) by lra. unfold within. mm. }
  change (1 / 2 <~ n0) with (Rltb (1 / 2) 0). rewrite (Rltb_false (1 / 2) 0) by lra.
  change (100 *~ tc_frac f_one 1 <~ 0) with (Rltb (100 * (1 / 1000)) 0). rewrite (Rltb_false (100 * (1 / 1000)) 0) by lra.
  cbn [orb]. unfold comp_thru. cbn [p_trace p_index]. rewrite sorb_limitR.
  change (100 * Reps <~ nabs 0) with (Rltb (100 * Reps) (Rabs 0)). rewrite Rabs_R0. rewrite (Rltb_false (100 * Reps) 0) by lra.
  reflexivity.
Qed.
Print Assumptions C180_flowless_refuted.

(** ** C181: the bed *)
Lemma loop_inv f dt t p mdot : forall (cs : list (@comp R)) done todo ss', length cs = length todo ->
  bed_loop powR f dt t p mdot cs done todo = Some ss' ->
  exists rest, ss' = done ++ rest /\ length rest = length cs /\
    forall i c s, nth_error cs i = Some c -> nth_error todo i = Some s ->
      exists s', nth_error rest i = Some s' /\
        sorbR c (dep_fill c (done ++ firstn i rest) (skipn i todo)) f dt t p mdot s = Some s'.
Proof.
  induction cs as [|c cs IH]; intros done todo ss' L H.
  - destruct todo; [|discriminate]. injection H as <-. exists []. rewrite app_nil_r. split; [reflexivity|]. split; [reflexivity|].
    intros i c s E. destruct i; discriminate.
  - destruct todo as [|s todo]; [discriminate|]. cbn [bed_loop] in H.
    destruct (sorbR c (dep_fill c done (s :: todo)) f dt t p mdot s) as [s1|] eqn:E; [|discriminate].
    destruct (IH (done ++ [s1]) todo ss' ltac:(cbn in L; lia) H) as (rest & A & B & C).
    exists (s1 :: rest). rewrite <- app_assoc in A. split; [exact A|]. split; [cbn; lia|].
    intros i c' s' X Y. destruct i as [|i].
    + injection X as <-. injection Y as <-. exists s1. split; [reflexivity|]. cbn [firstn skipn]. rewrite app_nil_r. exact E.
    + destruct (C i c' s' X Y) as (s2 & C1 & C2). exists s2. split; [exact C1|]. cbn [firstn skipn].
      replace (done ++ s1 :: firstn i rest) with ((done ++ [s1]) ++ firstn i rest) by (rewrite <- app_assoc; reflexivity). exact C2.
Qed.
Lemma firstn_skipn_nth {A} (a b : list A) i j : length a = length b -> (i <= length a)%nat ->
  nth_error (firstn i a ++ skipn i b) j = if (j <? i)%nat then nth_error a j else nth_error b j.
Proof.
  intros L I. assert (F : length (firstn i a) = i) by (rewrite firstn_length; lia).
  destruct (Nat.ltb_spec j i) as [Q|Q].
  - rewrite nth_error_app1 by lia. clear F L I. revert i j Q. induction a as [|x a IH]; intros i j Q; [rewrite firstn_nil; reflexivity|].
    destruct i as [|i]; [lia|]. destruct j as [|j]; [reflexivity|]. cbn. apply IH. lia.
  - rewrite nth_error_app2 by lia. rewrite F. clear F L I. replace j with (i + (j - i))%nat at 2 by lia. generalize (j - i)%nat. clear j Q.
    revert b. induction i as [|i IH]; intros b k; [reflexivity|]. destruct b as [|x b]; [destruct k; reflexivity|]. cbn. apply IH.
Qed.
(** The mean conditions along the bed. *)
Definition mean (a b : R) : R := (a + b) / 2.
Lemma mean_eq (a b : R) : ndec 5 (-1) *~ (a +~ b) = mean a b.
Proof. unfold mean. change (Rdec 5 (-1) * (a + b) = (a + b) / 2). replace (Rdec 5 (-1)) with (1 / 2) by (unfold Rdec; cbn; lra). lra. Qed.
(** Each compound sorbs by itself, in the order of the list: one that depends on an earlier compound
    sees it after its step, one that depends on a later compound before. *)
Theorem C181_each : forall cs f mole wall dt flow t_in t p0 p1 w old ss o, Reps < dt -> length cs = length ss ->
  bed_update powR cs f mole wall dt flow t_in t p0 p1 w old ss = Some o ->
  length (b_st o) = length cs /\
  forall i c s, nth_error cs i = Some c -> nth_error ss i = Some s ->
    exists s' dep, nth_error (b_st o) i = Some s' /\ sorbR c dep f dt (mean t_in t) (mean p0 p1) flow s = Some s' /\
      (p_dep c = None -> dep = None) /\
      (forall j, p_dep c = Some j -> dep = option_map q_fill (if (j <? i)%nat then nth_error (b_st o) j else nth_error ss j)).
Proof.
  intros cs f mole wall dt flow t_in t p0 p1 w old ss o D L E. unfold bed_update in E.
  change (neps <~ dt) with (Rltb Reps dt) in E. rewrite (Rltb_true _ _ D) in E. rewrite !mean_eq in E.
  destruct (bed_loop powR f dt (mean t_in t) (mean p0 p1) flow cs [] ss) as [ss'|] eqn:LP; [|discriminate].
  assert (O : b_st o = ss').
  { destruct (sorb_limit <~ nabs (bulk_rate cs ss')); injection E as <-; reflexivity. }
  destruct (loop_inv f dt (mean t_in t) (mean p0 p1) flow cs [] ss ss' L LP) as (rest & A & B & C).
  cbn [app] in A. subst rest. rewrite O. split; [exact B|]. intros i c s X Y. destruct (C i c s X Y) as (s' & C1 & C2).
  exists s', (dep_fill c (firstn i ss') (skipn i ss)). split; [exact C1|]. split; [exact C2|]. unfold dep_fill. split.
  - intros ->. reflexivity.
  - intros j ->. rewrite firstn_skipn_nth; [|lia|].
    + destruct (j <? i)%nat; [destruct (nth_error ss' j); reflexivity|destruct (nth_error ss j); reflexivity].
    + assert (i < length cs)%nat by (apply nth_error_Some; rewrite X; discriminate). lia.
Qed.
Print Assumptions C181_each.
(** So every compound stays within its capacity. *)
Theorem C181_range : forall cs f mole wall dt flow t_in t p0 p1 w old ss o, Reps < dt -> length cs = length ss ->
  (forall i c s, nth_error cs i = Some c -> nth_error ss i = Some s -> Reps <= p_max c /\ 0 <= q_ads s <= p_max c) ->
  bed_update powR cs f mole wall dt flow t_in t p0 p1 w old ss = Some o ->
  forall i c s', nth_error cs i = Some c -> nth_error (b_st o) i = Some s' -> 0 <= q_ads s' <= p_max c /\ q_fill s' = q_ads s' / p_max c.
Proof.
  intros cs f mole wall dt flow t_in t p0 p1 w old ss o D L V E i c s' X Y. pose proof Reps_pos as RP.
  destruct (C181_each cs f mole wall dt flow t_in t p0 p1 w old ss o D L E) as (N & A).
  assert (Q : (i < length ss)%nat) by (rewrite <- L; apply nth_error_Some; rewrite X; discriminate).
  destruct (nth_error ss i) as [s|] eqn:Z; [|apply nth_error_None in Z; lia].
  destruct (A i c s X Z) as (s1 & dep & Y' & S & _). rewrite Y in Y'. injection Y' as <-. destruct (V i c s X Z) as [V1 V2].
  destruct (C180_held c dep f dt (mean t_in t) (mean p0 p1) flow s s' ltac:(lra) V1 V2 S) as (R1 & R2 & _).
  split; [exact R1|exact R2].
Qed.
Print Assumptions C181_range.
(** What the fluids lose together leaves the node downstream; the heat of all the compounds joins
    that of the wall. *)
Definition fluid_rates (cs : list (@comp R)) (ss : list (@cst R)) : list R :=
  map (fun p => q_rate (snd p)) (List.filter (fun p => negb (p_trace (fst p))) (combine cs ss)).
Lemma bulk_total cs ss : bulk_rate cs ss = total (fluid_rates cs ss).
Proof.
  unfold bulk_rate, fluid_rates. generalize (combine cs ss). intro l.
  enough (G : forall a : R, fold_left (fun a p => if p_trace (fst p) then a else a +~ q_rate (snd p)) l a
            = a + total (map (fun p => q_rate (snd p)) (List.filter (fun p => negb (p_trace (fst p))) l))).
  { rewrite G. change (n0 : R) with 0. ring. }
  induction l as [|[c s] l IH]; intro a; [unfold total; cbn; ring|]. cbn [fold_left List.filter fst snd].
  destruct (p_trace c); cbn [negb map fst snd]; rewrite IH; [reflexivity|].
  change (total (q_rate s :: ?l)) with (q_rate s + total l). unfold total. cbn [fold_right]. rnum. ring.
Qed.
Lemma heat_total (ss : list (@cst R)) : bed_heat ss = total (map q_heat ss).
Proof.
  unfold bed_heat. enough (G : forall a : R, fold_left (fun a s => a +~ q_heat s) ss a = a + total (map q_heat ss)).
  { rewrite G. change (n0 : R) with 0. ring. }
  induction ss as [|s ss IH]; intro a; [unfold total; cbn; ring|]. cbn [fold_left map]. rewrite IH.
  unfold total. cbn [fold_right]. rnum. ring.
Qed.
Theorem C181_books : forall cs f mole wall dt flow t_in t p0 p1 w old ss o, Reps < dt ->
  bed_update powR cs f mole wall dt flow t_in t p0 p1 w old ss = Some o ->
  let r := total (fluid_rates cs (b_st o)) in
  b_heat o = wall + total (map q_heat (b_st o)) /\
  (100 * Reps < Rabs r ->
     (0 <= flow -> b_in o = Some (true, - r) /\ b_src o = (0, - r / w)) /\
     (flow < 0 -> b_in o = Some (false, - r) /\ b_src o = (- r / w, 0))) /\
  (Rabs r <= 100 * Reps -> b_in o = None /\ b_src o = (0, 0)).
Proof.
  intros cs f mole wall dt flow t_in t p0 p1 w old ss o D E. unfold bed_update in E.
  change (neps <~ dt) with (Rltb Reps dt) in E. rewrite (Rltb_true _ _ D) in E.
  destruct (bed_loop _ _ _ _ _ _ _ _ _) as [ss'|]; [|discriminate].
  rewrite bulk_total, heat_total, sorb_limitR in E. change (flow <~ n0) with (Rltb flow 0) in E.
  change (100 * Reps <~ nabs (total (fluid_rates cs ss'))) with (Rltb (100 * Reps) (Rabs (total (fluid_rates cs ss')))) in E.
  cbv zeta.
  destruct (Rltb_spec (100 * Reps) (Rabs (total (fluid_rates cs ss')))) as [Q|Q]; injection E as <-; cbn [b_st b_heat b_src b_in];
    (split; [reflexivity|]); split; intro H; try lra.
  - split; intro F.
    + rewrite (Rltb_false flow 0) by lra. split; reflexivity.
    + rewrite (Rltb_true _ _ F). split; reflexivity.
  - split; reflexivity.
Qed.
Print Assumptions C181_books.
(** Trace compounds leave the stream at the rate they are sorbed, as long as some fluid is sorbed
    too. *)
Definition trace_rates (i : nat) (cs : list (@comp R)) (ss : list (@cst R)) : list R :=
  map (fun p => q_rate (snd p)) (List.filter (fun p => p_trace (fst p) && Nat.eqb (p_index (fst p)) i) (combine cs ss)).
Lemma set_mass_nth (l : list (cell R)) k d i c : nth_error l i = Some c ->
  nth_error (set_mass l k d) i = Some (if Nat.eqb k i then mkcell (c_w c) (c_m c - d) (c_x c) else c).
Proof.
  revert k i. induction l as [|x l IH]; intros k i H; [destruct i; discriminate|].
  destruct k as [|k], i as [|i]; cbn in *.
  - injection H as ->. reflexivity.
  - rewrite H. reflexivity.
  - injection H as ->. reflexivity.
  - apply IH, H.
Qed.
Theorem C181_trace : forall cs f mole wall dt flow t_in t p0 p1 w old ss o i c, Reps < dt -> 0 < mole ->
  bed_update powR cs f mole wall dt flow t_in t p0 p1 w old ss = Some o -> 100 * Reps < Rabs (total (fluid_rates cs (b_st o))) ->
  nth_error (st_tc f) i = Some c -> 0 < c_w c ->
  exists c', nth_error (b_tc o) i = Some c' /\ c_w c' = c_w c /\
    c_m c' = kept mole (c_w c) (c_m c - total (trace_rates i cs (b_st o))) /\ c_m c' = c_x c' * mole * c_w c.
Proof.
  intros cs f mole wall dt flow t_in t p0 p1 w old ss o i c D M E B X W. unfold bed_update in E.
  change (neps <~ dt) with (Rltb Reps dt) in E. rewrite (Rltb_true _ _ D) in E.
  destruct (bed_loop _ _ _ _ _ _ _ _ _) as [ss'|]; [|discriminate].
  rewrite bulk_total, sorb_limitR in E.
  change (100 * Reps <~ nabs (total (fluid_rates cs ss'))) with (Rltb (100 * Reps) (Rabs (total (fluid_rates cs ss')))) in E.
  destruct (Rltb_spec (100 * Reps) (Rabs (total (fluid_rates cs ss')))) as [Q|Q]; injection E as <-; cbn [b_st b_tc] in *; [|lra].
  unfold bed_trace, trace_rates. revert X. generalize (st_tc f). intros tc X. generalize (combine cs ss'). intro l. clear B Q.
  revert tc c X W. induction l as [|[k s] l IH]; intros tc c X W.
  - cbn [fold_left List.filter map]. destruct (settle_one mole c M W) as (A & B & _ & C & _).
    exists (cut_off (refraction mole c)). split; [rewrite fracs_map, nth_error_map, X; reflexivity|]. split; [exact A|].
    split; [rewrite B; f_equal; unfold total; cbn; ring|]. etransitivity; [exact C|]. rewrite A. reflexivity.
  - cbn [fold_left List.filter fst snd]. destruct (p_trace k); cbn [andb]; [|apply IH; assumption].
    pose proof (set_mass_nth tc (p_index k) (q_rate s) i c X) as Y. destruct (Nat.eqb (p_index k) i) eqn:Z.
    + destruct (IH _ _ Y W) as (c' & A & B & C & G). exists c'. split; [exact A|]. split; [exact B|]. split; [|exact G].
      rewrite C. cbn [c_w c_m map snd]. f_equal. unfold total. cbn [fold_right]. ring.
    + apply (IH _ _ Y W).
Qed.
Print Assumptions C181_trace.
(** A bed of trace compounds alone takes them in without taking them out of the stream. *)
Theorem C181_trace_refuted : exists c f mole dt flow t p w s o,
  comp_valid c (q_ads s) = true /\ p_trace c = true /\ 0 < mole /\ Reps < dt /\
  bed_update powR [c] f mole 0 dt flow t t p p w (0, 0) [s] = Some o /\
  (exists s', b_st o = [s'] /\ 0 < q_rate s' /\ q_ads s' = q_ads s + q_rate s' * dt) /\ b_tc o = st_tc f /\ b_in o = None.
Proof.
  pose proof Reps_small as RS. pose proof Reps_pos as RP.
  set (c := mkcomp true 1 30 1 0 10 0 1 100 false 1 None false 1 : @comp R).
  set (ra := 1 / 10 : R).
  assert (S : sorbR c None f_one 1 (mean 300 300) (mean 100 100) 2 s_one = Some (mkcst (5 + ra * 1) (fill_of c (5 + ra * 1)) ra (- (100) * ra * 1000000 / 30))).
  { unfold comp_sorb, comp_wanted. cbn [p_trace p_index p_dpp p_c0 p_c1 p_dfac c].
    replace (limit_range (nopp n1) (1 +~ 0 *~ mean 300 300) n1) with (1 : R).
    2: { symmetry. change (limit_range (-1) (1 + 0 * mean 300 300) 1 = 1). rewrite (limit_within (-1) (1 + 0 * mean 300 300) 1) by lra.
         replace (1 + 0 * mean 300 300) with 1 by ring. unfold within. mm. }
    change (1 <~ n0) with (Rltb 1 0). rewrite (Rltb_false 1 0) by lra.
    change (mean 100 100 *~ tc_frac f_one 1 <~ 0) with (Rltb (mean 100 100 * (1 / 1000)) 0).
    rewrite (Rltb_false (mean 100 100 * (1 / 1000)) 0) by (unfold mean; lra). cbn [orb]. unfold comp_thru. cbn [p_trace p_index c].
    rewrite sorb_limitR. change (100 * Reps <~ nabs 2) with (Rltb (100 * Reps) (Rabs 2)). rewrite (Rabs_pos_eq 2) by lra.
    rewrite (Rltb_true (100 * Reps) 2) by lra. cbn [andb].
    change (tc_mass f_one 1) with (1 / 10 : R). change ((1 : R) *~ (1 / 10 : R)) with (1 * (1 / 10)). rewrite shape_eq by (cbn; lra). rewrite cap_eq by (cbn; lra).
    unfold slowed. cbn [p_taper p_malf p_dep c q_ads s_one q_fill p_max].
    replace (within (- (5) / 1) (1 * (1 / 10) * (1 * 1 * 1)) ((10 - 5) / 1)) with ra by (unfold within, ra; mm).
    change (@nadd R RNum 5 (@nmul R RNum ra 1)) with (5 + ra * 1). replace (@comp_snap R RNum c (5 + ra * 1)) with (5 + ra * 1).
    2: { unfold comp_snap. change (@nlt R RNum (5 + ra * 1) (@neps R RNum)) with (Rltb (5 + ra * 1) Reps).
         rewrite (Rltb_false (5 + ra * 1) Reps) by (unfold ra; lra). cbn [p_max c]. change (@nlt R RNum (@nsub R RNum 10 (5 + ra * 1)) (@neps R RNum)) with (Rltb (10 - (5 + ra * 1)) Reps).
         rewrite (Rltb_false (10 - (5 + ra * 1)) Reps) by (unfold ra; lra). reflexivity. }
    rewrite megaR. reflexivity. }
  set (s' := mkcst (5 + ra * 1) (fill_of c (5 + ra * 1)) ra (- (100) * ra * 1000000 / 30)) in *.
  assert (BL : bed_loop powR f_one 1 (mean 300 300) (mean 100 100) 2 [c] [] [s_one] = Some [s']).
  { cbn [bed_loop]. change (dep_fill c [] [s_one]) with (@None R). rewrite S. reflexivity. }
  exists c, f_one, 1, 1, 2, 300, 100, 30, s_one, (mkbed [s'] (0 +~ bed_heat [s']) (st_tc f_one) (0, 0) None).
  split; [apply C180_init; cbn; lra|]. split; [reflexivity|]. split; [lra|]. split; [lra|]. split.
  - unfold bed_update. change (neps <~ 1) with (Rltb Reps 1). rewrite (Rltb_true Reps 1) by lra. rewrite !mean_eq, BL.
    rewrite bulk_total, sorb_limitR. change (total (fluid_rates [c] [s'])) with (0 : R).
    change (100 * Reps <~ nabs 0) with (Rltb (100 * Reps) (Rabs 0)). rewrite Rabs_R0, (Rltb_false (100 * Reps) 0) by lra. reflexivity.
  - split; [|split; reflexivity]. exists s'. split; [reflexivity|]. split; [unfold s', ra; cbn [q_rate]; lra|reflexivity].
Qed.
Print Assumptions C181_trace_refuted.
Example C181_nonvacuous : exists o, bed_update powR [c_o2] f_one 1 0 1 2 300 300 100 100 32 (0, 0) [s_one] = Some o.
Proof.
  pose proof Reps_small. unfold bed_update. change (neps <~ 1) with (Rltb Reps 1). rewrite (Rltb_true Reps 1) by lra. rewrite !mean_eq.
  replace (mean 300 300) with 300 by (unfold mean; lra). replace (mean 100 100) with 100 by (unfold mean; lra).
  cbn [bed_loop]. change (dep_fill c_o2 [] [s_one]) with (@None R). pose proof (thru_o2 1) as T.
  destruct (sorbR c_o2 None f_one 1 300 100 2 s_one) as [s'|]; [|congruence].
  match goal with |- context [if ?b then _ else _] => destruct b end; eexists; reflexivity.
Qed.

(** ** C182: the gas side of a separator *)
Notation sepR := (sep_update powR).
(** What condenses in a step and how much of it the drum keeps. *)
Definition condensed (c : @sep_cfg R) (dt flow hum x speed : R) : R :=
  if Rlt_dec dt Reps then 0 else if Rlt_dec flow (100 * Reps) then 0 else if Rlt_dec hum 1 then 0
  else Rmin (x * Rabs flow * dt) (s_removal c * speed * dt).
Definition drained (transfer dt : R) : R := Rmax 0 (transfer * dt).
Definition separated (c : @sep_cfg R) (dt flow hum x speed l : R) : R :=
  if Rlt_dec dt Reps then 0 else if Rlt_dec flow (100 * Reps) then 0 else if Rlt_dec hum 1 then 0
  else Rmin (condensed c dt flow hum x speed) (s_max c - l).
Theorem C182_books : forall c dt flow hum x w (s : @sep R),
  let out := drained (s_transfer s) dt in
  let l := Rmax 0 (s_liquid s - out) in
  let m := separated c dt flow hum x (s_speed s) l in
  let (s', io) := sepR c dt flow hum x w s in
  s_liquid s' = l + m /\ s_err s' = s_err s + Rmax 0 (out - s_liquid s) /\
  s_liquid s' - s_err s' = s_liquid s - s_err s - out + m /\
  (Reps <= dt -> s_rate s' = m / dt) /\ (dt < Reps -> s_rate s' = 0) /\
  (s_over s' = true <-> m < condensed c dt flow hum x (s_speed s)) /\
  s_dp s' = s_curve c * s_speed s * powR (s_liquid s') (s_exp c) /\
  s_speed s' = s_speed s /\ s_transfer s' = s_transfer s /\
  (100 * Reps < s_rate s' -> io = Some (true, - s_rate s') /\ s_src s' = (0, - s_rate s' / w)) /\
  (s_rate s' <= 100 * Reps -> io = None /\ s_src s' = (0, 0)).
Proof.
  intros c dt flow hum x w s. cbv zeta. unfold sep_update. rewrite sorb_limitR. pose proof Reps_pos as RP.
  change (flow <~ 100 * Reps) with (Rltb flow (100 * Reps)). change (hum <~ n1) with (Rltb hum 1). change (dt <~ neps) with (Rltb dt Reps).
  rewrite nmaxR. change (s_liquid s -~ Rmax n0 (s_transfer s *~ dt)) with (s_liquid s - drained (s_transfer s) dt).
  set (out := drained (s_transfer s) dt). clearbody out. set (l1 := s_liquid s - out).
  change (l1 <~ n0) with (Rltb l1 0).
  assert (E : (if Rltb l1 0 then (n0, s_err s -~ l1) else (l1, s_err s)) = (Rmax 0 l1, s_err s + Rmax 0 (out - s_liquid s))).
  { unfold l1. change (n0 : R) with 0. destruct (Rltb_spec (s_liquid s - out) 0) as [A|A].
    - rewrite Rmax_left, Rmax_right by lra. f_equal. rnum. ring.
    - rewrite Rmax_right, Rmax_left by lra. f_equal. ring. }
  rewrite E. set (l := Rmax 0 l1). assert (LL : l = s_liquid s - out + Rmax 0 (out - s_liquid s)) by (unfold l, l1; mm). clearbody l. clear E.
  set (cd := condensed c dt flow hum x (s_speed s)). set (m := separated c dt flow hum x (s_speed s) l).
  assert (G : (if Rltb dt Reps || (Rltb flow (100 * Reps) || Rltb hum 1) then (l, n0, false)
     else (l +~ nmin (nmin (x *~ nabs flow *~ dt) (s_removal c *~ s_speed s *~ dt)) (s_max c -~ l),
           nmin (nmin (x *~ nabs flow *~ dt) (s_removal c *~ s_speed s *~ dt)) (s_max c -~ l) /~ dt,
           nmin (nmin (x *~ nabs flow *~ dt) (s_removal c *~ s_speed s *~ dt)) (s_max c -~ l) <~ nmin (x *~ nabs flow *~ dt) (s_removal c *~ s_speed s *~ dt)))
     = (l + m, (if Rlt_dec dt Reps then 0 else m / dt), Rltb m cd)).
  { unfold m, cd, separated. change (n0 : R) with 0.
    destruct (Rltb_spec dt Reps) as [A|A]; destruct (Rlt_dec dt Reps) as [A'|A']; try lra; cbn [orb].
    - unfold condensed. destruct (Rlt_dec dt Reps); [|lra]. rewrite (Rltb_false 0 0) by lra. rewrite Rplus_0_r. reflexivity.
    - destruct (Rltb_spec flow (100 * Reps)) as [B|B]; destruct (Rlt_dec flow (100 * Reps)) as [B'|B']; try lra; cbn [orb].
      + unfold condensed. destruct (Rlt_dec dt Reps); [lra|]. destruct (Rlt_dec flow (100 * Reps)); [|lra].
        rewrite (Rltb_false 0 0) by lra. rewrite Rplus_0_r. replace (0 / dt) with 0 by (unfold Rdiv; ring). reflexivity.
      + destruct (Rltb_spec hum 1) as [C|C]; destruct (Rlt_dec hum 1) as [C'|C']; try lra; cbn [orb];
          unfold condensed; destruct (Rlt_dec dt Reps); try lra; destruct (Rlt_dec flow (100 * Reps)); try lra; destruct (Rlt_dec hum 1); try lra.
        * rewrite (Rltb_false 0 0) by lra. rewrite Rplus_0_r. replace (0 / dt) with 0 by (unfold Rdiv; ring). reflexivity.
        * rewrite !nminR. reflexivity. }
  rewrite G. clear G. clearbody m cd. cbn [s_liquid s_err s_rate s_over s_dp s_src s_speed s_transfer].
  split; [reflexivity|]. split; [reflexivity|]. split; [lra|].
  split; [intro; destruct (Rlt_dec dt Reps); [lra|reflexivity]|]. split; [intro; destruct (Rlt_dec dt Reps); [reflexivity|lra]|].
  split; [destruct (Rltb_spec m cd); split; intro; first [lra|reflexivity|discriminate]|].
  split; [reflexivity|]. split; [reflexivity|]. split; [reflexivity|].
  set (r := if Rlt_dec dt Reps then 0 else m / dt). clearbody r. change (100 * Reps <~ r) with (Rltb (100 * Reps) r).
  split; intro H.
  - rewrite (Rltb_true _ _ H). split; reflexivity.
  - rewrite (Rltb_false _ _ H). split; reflexivity.
Qed.
Print Assumptions C182_books.
(** Step after step the drum holds no less than nothing and no more than it can. *)
Definition sep_steps (c : @sep_cfg R) (l : list (R * R * R * R * R * R * R)) (s : @sep R) : @sep R :=
  fold_left (fun s p => let '(dt, flow, hum, x, w, speed, transfer) := p in
    fst (sepR c dt flow hum x w (mksep speed transfer (s_liquid s) (s_err s) (s_rate s) (s_over s) (s_dp s) (s_src s)))) l s.
Theorem C182_range : forall c l s, 0 <= s_removal c -> 0 <= s_liquid s <= s_max c ->
  Forall (fun p => let '(dt, flow, hum, x, w, speed, transfer) := p in 0 <= x /\ 0 <= speed) l ->
  0 <= s_liquid (sep_steps c l s) <= s_max c /\ s_err s <= s_err (sep_steps c l s).
Proof.
  intros c l. induction l as [|[[[[[[dt flow] hum] x] w] speed] transfer] l IH]; intros s RM H V; [split; [exact H|apply Rle_refl]|].
  cbn [sep_steps fold_left]. assert (XS : 0 <= x /\ 0 <= speed) by exact (Forall_inv V). destruct XS as [X SP]. pose proof (Forall_inv_tail V) as V'.
  set (s0 := mksep speed transfer (s_liquid s) (s_err s) (s_rate s) (s_over s) (s_dp s) (s_src s)).
  pose proof (C182_books c dt flow hum x w s0) as B. cbv zeta in B. destruct (sepR c dt flow hum x w s0) as [s1 io] eqn:E.
  destruct B as (B1 & B2 & _). change (s_liquid s0) with (s_liquid s) in *. change (s_err s0) with (s_err s) in *.
  change (s_speed s0) with speed in *. change (s_transfer s0) with transfer in *.
  assert (O : 0 <= drained transfer dt) by apply Rmax_l. set (out := drained transfer dt) in *. clearbody out.
  assert (L : 0 <= Rmax 0 (s_liquid s - out) <= s_max c) by (mm).
  set (l0 := Rmax 0 (s_liquid s - out)) in *. clearbody l0.
  assert (M : 0 <= separated c dt flow hum x speed l0 <= s_max c - l0).
  { unfold separated, condensed. pose proof Reps_pos. destruct (Rlt_dec dt Reps); [lra|]. destruct (Rlt_dec flow (100 * Reps)); [lra|].
    destruct (Rlt_dec hum 1); [lra|]. pose proof (Rabs_pos flow).
    assert (0 <= x * Rabs flow * dt) by (apply Rmult_le_pos; [apply Rmult_le_pos; lra|lra]).
    assert (0 <= s_removal c * speed * dt) by (apply Rmult_le_pos; [apply Rmult_le_pos; lra|lra]).
    set (a := x * Rabs flow * dt) in *. clearbody a. set (b := s_removal c * speed * dt) in *. clearbody b. mm. }
  assert (E1 : s_err s <= s_err s1) by (rewrite B2; pose proof (Rmax_l 0 (out - s_liquid s)); lra).
  cbn [fst]. destruct (IH s1 RM ltac:(rewrite B1; lra) V') as [I1 I2]. split; [exact I1|]. unfold sep_steps in I2. lra.
Qed.
Print Assumptions C182_range.
Example C182_range_nonvacuous : let c := sep_derive powR 1 10 100 5 2 : @sep_cfg R in
  0 <= s_removal c /\ Forall (fun p : R * R * R * R * R * R * R => let '(dt, flow, hum, x, w, speed, transfer) := p in 0 <= x /\ 0 <= speed) [(1, 1, 1, 1 / 10, 18, 50, 0)].
Proof. cbn. split; [rnum; lra|]. repeat constructor; lra. Qed.
(** The coefficients are those at which a full drum at the reference speed gives the reference rise
    of pressure, and removes liquid at the reference rate. *)
Theorem C182_reference : forall expo cap rspeed rpress rrate, 0 < cap -> 0 < rspeed ->
  let c := sep_derive powR expo cap rspeed rpress rrate in
  s_curve c * rspeed * powR cap (s_exp c) = rpress /\ s_removal c * rspeed = rrate /\ s_max c = cap /\
  forall sp l, s_curve c * sp * powR l (s_exp c) = rpress * (sp / rspeed) * (powR l expo / powR cap expo).
Proof.
  intros expo cap rspeed rpress rrate C S. cbv zeta. unfold sep_derive. cbn [s_curve s_exp s_removal s_max].
  pose proof (powR_pos cap expo C) as P. rnum. set (q := powR cap expo) in *. clearbody q.
  split; [field; lra|]. split; [field; lra|]. split; [reflexivity|]. intros sp l. field. lra.
Qed.
Print Assumptions C182_reference.
Theorem C182_init : forall expo cap rspeed rpress rrate speed liquid : R,
  sep_valid expo cap rspeed rpress rrate speed liquid = true <->
  1 / 10 <= expo <= 10 /\ feps <= cap /\ feps <= rspeed /\ feps <= rpress /\ feps <= rrate /\ 0 <= speed /\ 0 <= liquid.
Proof.
  intros expo cap rspeed rpress rrate speed liquid. unfold sep_valid, is_in_range.
  replace (ndec 10 0 : R) with 10 by (rnum; unfold Rdec; cbn; lra). replace (ndec 1 (-1) : R) with (1 / 10) by reflexivity.
  set (fe := feps : R). clearbody fe. rnum. rewrite !andb_true_iff, !negb_true_iff. split.
  - intros (((((((A & A') & B) & C) & D) & E) & F) & G). rcases; repeat split; lra.
  - intros (A & B & C & D & E & F & G). rcases; repeat split; try reflexivity; lra.
Qed.
Print Assumptions C182_init.
(** Liquid would only be lost by draining; a drum that starts with more than it can hold loses the
    excess to nowhere. *)
Theorem C182_lost_refuted : exists expo cap rspeed rpress rrate speed liquid dt flow hum x w,
  sep_valid expo cap rspeed rpress rrate speed liquid = true /\ Reps < dt /\ 1 <= hum /\ 0 <= x <= 1 /\ 0 < w /\
  let c := sep_derive powR expo cap rspeed rpress rrate in
  let (s', io) := sepR c dt flow hum x w (mksep speed 0 liquid 0 0 false 0 (0, 0)) in
  s_liquid s' = liquid - 2 /\ s_err s' = 0 /\ s_transfer s' = 0 /\ io = None /\ s_src s' = (0, 0).
Proof.
  pose proof Reps_small as RS. pose proof Reps_pos as RP.
  assert (FE : 0 < (feps : R) < 1 / 10) by apply core_feps.
  exists 1, 10, 100, 5, 2, 50, 12, 1, 1, 1, (1 / 10), 18.
  split; [apply C182_init; lra|]. split; [lra|]. split; [lra|]. split; [lra|]. split; [lra|]. cbv zeta.
  set (c := sep_derive powR 1 10 100 5 2).
  pose proof (C182_books c 1 1 1 (1 / 10) 18 (mksep 50 0 12 0 0 false 0 (0, 0))) as B. cbv zeta in B.
  destruct (sepR c 1 1 1 (1 / 10) 18 (mksep 50 0 12 0 0 false 0 (0, 0))) as [s' io].
  cbn [s_liquid s_err s_transfer s_speed] in B. destruct B as (B1 & B2 & _ & B4 & _ & _ & _ & _ & B8 & _ & B10).
  assert (OU : drained 0 1 = 0) by (unfold drained; rewrite Rmult_0_l; mm).
  rewrite OU in *. replace (Rmax 0 (12 - 0)) with 12 in * by (mm). replace (Rmax 0 (0 - 12)) with 0 in * by (mm).
  assert (M : separated c 1 1 1 (1 / 10) 50 12 = - 2).
  { unfold separated, condensed. destruct (Rlt_dec 1 Reps); [lra|]. destruct (Rlt_dec 1 (100 * Reps)); [lra|]. destruct (Rlt_dec 1 1); [lra|].
    change (s_max c) with 10. change (s_removal c) with (2 / 100). rewrite (Rabs_pos_eq 1) by lra. mm. }
  rewrite M in *. split; [lra|]. split; [lra|]. split; [exact B8|]. apply B10. rewrite B4 by lra. lra.
Qed.
Print Assumptions C182_lost_refuted.
