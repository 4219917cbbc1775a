(** C162: relief and regulator valves. *)
From Coq Require Import Floats.
From Coq Require Import Reals Lra Lia List Arith Bool ZArith.
From Verif Require Import Num Ord Loops MathUtil Props_Math Spec_Valve Props_Valve Props_Thermal FluidFlow Props_FluidFlow FluidValves Props_FluidValves.
Import ListNotations.
Local Open Scope R_scope.

(** ** What the data sheet of such a valve says *)
(** The opening at the fraction [z] of the way from the start of the stroke (0) to full open (1):
    steeper by [s] up to the pop position, and from there straight to full open. *)
Definition lift (pop s z : R) : R := if Rle_dec z (pop / s) then s * z else pop + (1 - pop) * (z - pop / s) / (1 - pop / s).
Definition stroke (start full p : R) : R := (p - start) / (full - start).
(** The opening that the pressure must at least cause, and the opening that it can hold. *)
Definition opens (c : @rcfg R) (p : R) : R := within 0 (lift (g_pop c) (g_scale c) (stroke (g_crack c) (g_full c) p)) 1.
Definition holds (c : @rcfg R) (p : R) : R := within 0 (lift (g_pop c) (g_scale c) (stroke (g_reseat c) (g_full c) p)) 1.
(** The three pressures in order, upwards or downwards. *)
Definition rising (c : @rcfg R) : Prop := g_reseat c < g_crack c < g_full c /\ 0 < g_pop c < 1 /\ 1 <= g_scale c.
Definition falling (c : @rcfg R) : Prop := g_full c < g_crack c < g_reseat c /\ 0 < g_pop c < 1 /\ 1 <= g_scale c.

Section LIFT.
Variables pop s : R.
Hypothesis Hp : 0 < pop < 1.
Hypothesis Hs : 1 <= s.
Lemma q_range : 0 < pop / s < 1.
Proof.
  split; [apply Rmult_lt_0_compat; [lra|apply Rinv_0_lt_compat; lra]|]. apply Rmult_lt_reg_r with s; [lra|]. unfold Rdiv. rewrite Rmult_assoc, Rinv_l by lra. lra.
Qed.
Lemma lift_0 : lift pop s 0 = 0.
Proof. pose proof q_range. unfold lift. destruct (Rle_dec 0 (pop / s)); [ring|lra]. Qed.
Lemma lift_1 : lift pop s 1 = 1.
Proof. pose proof q_range. unfold lift. destruct (Rle_dec 1 (pop / s)); [lra|field]. split; lra. Qed.
Lemma lift_mono z z' : z < z' -> lift pop s z < lift pop s z'.
Proof.
  pose proof q_range as Q. assert (E : s * (pop / s) = pop) by (field; lra). assert (K : 0 < (1 - pop) / (1 - pop / s)) by (apply Rmult_lt_0_compat; [lra|apply Rinv_0_lt_compat; lra]).
  assert (X : forall x, (1 - pop) * (x - pop / s) / (1 - pop / s) = (1 - pop) / (1 - pop / s) * (x - pop / s)) by (intro; field; split; lra).
  unfold lift. rewrite !X. set (q := pop / s) in *. set (k := (1 - pop) / (1 - q)) in *. clearbody q k. intro L.
  destruct (Rle_dec z q), (Rle_dec z' q); try lra.
  - apply Rmult_lt_compat_l; lra.
  - assert (s * z <= pop) by (rewrite <- E; apply Rmult_le_compat_l; lra). pose proof (Rmult_lt_0_compat k (z' - q)). lra.
  - pose proof (Rmult_lt_compat_l k (z - q) (z' - q)). lra.
Qed.
Definition unlift (x : R) : R := if Rle_dec x pop then x / s else pop / s + (x - pop) * (1 - pop / s) / (1 - pop).
Lemma lift_unlift x : lift pop s (unlift x) = x.
Proof.
  pose proof q_range as Q. unfold unlift, lift. destruct (Rle_dec x pop) as [L|L].
  - destruct (Rle_dec (x / s) (pop / s)) as [M|M]; [field; lra|]. exfalso. apply M. apply Rmult_le_compat_r; [left; apply Rinv_0_lt_compat|]; lra.
  - assert (0 < (x - pop) * (1 - pop / s) / (1 - pop)) by (apply Rmult_lt_0_compat; [apply Rmult_lt_0_compat; lra|apply Rinv_0_lt_compat; lra]).
    destruct (Rle_dec (pop / s + (x - pop) * (1 - pop / s) / (1 - pop)) (pop / s)); [lra|].
    set (q := pop / s) in *. clearbody q. field. split; lra.
Qed.
Lemma unlift_lt x z : (unlift x < z <-> x < lift pop s z) /\ (z < unlift x <-> lift pop s z < x).
Proof.
  assert (A : forall a b, lift pop s a < lift pop s b -> a < b).
  { intros a b H. destruct (Rlt_dec a b); [assumption|]. destruct (Req_dec a b) as [E|E]; [subst; lra|]. pose proof (lift_mono b a). lra. }
  rewrite <- (lift_unlift x) at 2 4. repeat split; try apply lift_mono; apply A.
Qed.
End LIFT.

(** ** The code's curves *)
Section UP.
Variable c : @rcfg R.
Hypothesis V : rising c.
Let pop := g_pop c.
Let s := g_scale c.
Let Hp : 0 < pop < 1.
Proof. exact (proj1 (proj2 V)). Qed.
Let Hs : 1 <= s.
Proof. exact (proj2 (proj2 V)). Qed.
Lemma curve_fields start : start < g_full c ->
  let u := derive_curve c start in
  u_p u = start + (g_full c - start) * (pop / s) /\
  (forall p, u_b u + u_m u * p = s * stroke start (g_full c) p) /\
  (forall p, u_nb u + u_nm u * p = pop + (1 - pop) * (stroke start (g_full c) p - pop / s) / (1 - pop / s)) /\
  (forall x, (x - u_b u) * u_inv u = start + (g_full c - start) * (x / s)) /\
  (forall x, (x - u_nb u) * u_ninv u = start + (g_full c - start) * (pop / s + (x - pop) * (1 - pop / s) / (1 - pop))).
Proof.
  intro L. cbv zeta. unfold derive_curve. cbn [u_p u_b u_m u_nb u_nm u_inv u_ninv]. rnum. fold pop s.
  pose proof (q_range pop s Hp Hs) as Q. destruct Hp as [P1 P2]. pose proof Hs as S1.
  assert (E : (pop - - (1 / (g_full c - start) * s) * start) * (1 / (1 / (g_full c - start) * s)) = start + (g_full c - start) * (pop / s)) by (field; split; lra).
  rewrite E. clear E. unfold stroke. set (f := g_full c) in *. assert (K : pop / s * s = pop) by (field; lra).
  split; [reflexivity|]. split; [intro; field; lra|]. 
  assert (E : forall X, (1 - pop) / (f - (start + (f - start) * (pop / s))) = X -> (1 - pop) / ((f - start) * (1 - pop / s)) = X) by (intros X <-; f_equal; ring).
  assert (E2 : f - (start + (f - start) * (pop / s)) = (f - start) * (1 - pop / s)) by ring. rewrite E2.
  set (q := pop / s) in *. clearbody q f.
  split; [intro; field; split; lra|]. split; [intro; field; split; lra|intro; field; repeat split; lra].
Qed.
Lemma stroke_lt start p z : start < g_full c -> (start + (g_full c - start) * z < p <-> z < stroke start (g_full c) p) /\ (p < start + (g_full c - start) * z <-> stroke start (g_full c) p < z).
Proof.
  intro L. unfold stroke. set (w := g_full c - start). assert (W : 0 < w) by (unfold w; lra). assert (E : (p - start) = (p - start) / w * w) by (field; lra).
  set (y := (p - start) / w) in *. clearbody y w. replace p with (start + y * w) by lra.
  repeat split; intro H.
  - apply Rmult_lt_reg_r with w; lra.
  - pose proof (Rmult_lt_compat_r w _ _ W H). lra.
  - apply Rmult_lt_reg_r with w; lra.
  - pose proof (Rmult_lt_compat_r w _ _ W H). lra.
Qed.
Lemma on_lift start p : start < g_full c -> relief_on (derive_curve c start) p = lift pop s (stroke start (g_full c) p).
Proof.
  intro L. destruct (curve_fields start L) as (F1 & F2 & F3 & _). unfold relief_on, lift.
  change (p <=~ u_p (derive_curve c start)) with (Rleb p (u_p (derive_curve c start))). rewrite F1.
  destruct (stroke_lt start p (pop / s) L) as [A _].
  destruct (Rleb_spec p (start + (g_full c - start) * (pop / s))) as [Q|Q], (Rle_dec (stroke start (g_full c) p) (pop / s)) as [Q'|Q']; rnum; auto.
  - exfalso. apply Q'. apply Rnot_lt_le. intro X. apply A in X. lra.
  - exfalso. apply Q. apply Rnot_lt_le. intro X. apply A in X. lra.
Qed.
Lemma pressure_lift start p x : start < g_full c ->
  (curve_pressure (g_pop c) (derive_curve c start) x < p <-> x < lift pop s (stroke start (g_full c) p)) /\
  (p < curve_pressure (g_pop c) (derive_curve c start) x <-> lift pop s (stroke start (g_full c) p) < x).
Proof.
  intro L. destruct (curve_fields start L) as (_ & _ & _ & F4 & F5).
  assert (E : curve_pressure (g_pop c) (derive_curve c start) x = start + (g_full c - start) * unlift pop s x).
  { unfold curve_pressure, unlift. fold pop. change (x <=~ pop) with (Rleb x pop). destruct (Rleb_spec x pop), (Rle_dec x pop); try lra; rnum; auto. }
  rewrite E. destruct (stroke_lt start p (unlift pop s x) L) as [A B]. destruct (unlift_lt pop s Hp Hs x (stroke start (g_full c) p)) as [C D]. tauto.
Qed.
Lemma stroke_mono start p p' : start < g_full c -> p <= p' -> stroke start (g_full c) p <= stroke start (g_full c) p'.
Proof. intros L H. unfold stroke. apply Rmult_le_compat_r; [left; apply Rinv_0_lt_compat|]; lra. Qed.
Lemma lift_le z z' : z <= z' -> lift pop s z <= lift pop s z'.
Proof. intros [H| ->]; [left; apply lift_mono; assumption|right; reflexivity]. Qed.
Lemma stroke_start start : start < g_full c -> stroke start (g_full c) start = 0.
Proof. intro. unfold stroke. field. lra. Qed.
Lemma stroke_full start : start < g_full c -> stroke start (g_full c) (g_full c) = 1.
Proof. intro. unfold stroke. field. lra. Qed.
Lemma opens_facts p : 0 <= opens c p <= holds c p /\ holds c p <= 1 /\ (p <= g_crack c -> opens c p = 0) /\ (p <= g_reseat c -> holds c p = 0) /\
  (g_full c <= p -> opens c p = 1 /\ holds c p = 1).
Proof.
  destruct V as ((V1 & V2) & _). unfold opens, holds. fold pop s.
  assert (A : forall start, start < g_full c -> (p <= start -> lift pop s (stroke start (g_full c) p) <= 0) /\ (g_full c <= p -> 1 <= lift pop s (stroke start (g_full c) p))).
  { intros st L. split; intro H.
    - rewrite <- (lift_0 pop s Hp Hs). apply lift_le. rewrite <- (stroke_start st L). apply stroke_mono; assumption.
    - rewrite <- (lift_1 pop s Hp Hs) at 1. apply lift_le. rewrite <- (stroke_full st L). apply stroke_mono; assumption. }
  destruct (A (g_crack c) V2) as [A1 A2]. destruct (A (g_reseat c)) as [A3 A4]; [lra|].
  assert (B : p <= g_full c -> lift pop s (stroke (g_crack c) (g_full c) p) <= lift pop s (stroke (g_reseat c) (g_full c) p)).
  { intro H. apply lift_le. unfold stroke. set (f := g_full c) in *. set (k := g_crack c) in *. set (r := g_reseat c) in *. clearbody f k r.
    assert (E : (p - k) / (f - k) = 1 - (f - p) / (f - k)) by (field; lra). assert (E' : (p - r) / (f - r) = 1 - (f - p) / (f - r)) by (field; lra). rewrite E, E'.
    assert ((f - p) / (f - r) <= (f - p) / (f - k)); [|lra]. apply Rmult_le_compat_l; [lra|]. apply Rinv_le_contravar; lra. }
  set (a := lift pop s (stroke (g_crack c) (g_full c) p)) in *. set (b := lift pop s (stroke (g_reseat c) (g_full c) p)) in *. clearbody a b.
  split; [split; [rmm|]|split; [rmm|split; [|split]]].
  - destruct (Rle_dec p (g_full c)) as [Q|Q]; [specialize (B Q); rmm|]. specialize (A2 ltac:(lra)). specialize (A4 ltac:(lra)). rmm.
  - intro H. specialize (A1 H). rmm.
  - intro H. specialize (A3 H). rmm.
  - intro H. specialize (A2 H). specialize (A4 H). split; rmm.
Qed.
Lemma opens_mono p p' : p <= p' -> opens c p <= opens c p' /\ holds c p <= holds c p'.
Proof.
  intro H. destruct V as ((V1 & V2) & _). unfold opens, holds. fold pop s.
  assert (A : lift pop s (stroke (g_crack c) (g_full c) p) <= lift pop s (stroke (g_crack c) (g_full c) p')) by (apply lift_le, stroke_mono; assumption).
  assert (B : lift pop s (stroke (g_reseat c) (g_full c) p) <= lift pop s (stroke (g_reseat c) (g_full c) p')) by (apply lift_le, stroke_mono; lra).
  split; rmm.
Qed.
Lemma opens_lt p x : 0 <= x <= 1 ->
  (curve_pressure (g_pop c) (derive_curve c (g_crack c)) x < p -> x <= opens c p) /\ (p <= curve_pressure (g_pop c) (derive_curve c (g_crack c)) x -> opens c p <= x) /\
  (p < curve_pressure (g_pop c) (derive_curve c (g_reseat c)) x -> holds c p <= x) /\ (curve_pressure (g_pop c) (derive_curve c (g_reseat c)) x <= p -> x <= holds c p) /\
  ~ (curve_pressure (g_pop c) (derive_curve c (g_crack c)) x < p < curve_pressure (g_pop c) (derive_curve c (g_reseat c)) x).
Proof.
  intro X. pose proof V as ((V1 & V2) & _). destruct (pressure_lift (g_crack c) p x V2) as [A _]. destruct (pressure_lift (g_reseat c) p x ltac:(lra)) as [_ B].
  assert (O : opens c p <= holds c p) by apply opens_facts.
  unfold opens, holds in *. fold pop s in O |- *. fold pop s in A, B. set (a := lift pop s (stroke (g_crack c) (g_full c) p)) in *. set (b := lift pop s (stroke (g_reseat c) (g_full c) p)) in *. clearbody a b.
  split; [|split; [|split; [|split]]].
  - intro H. apply A in H. rmm.
  - intro H. assert (a <= x) by (apply Rnot_lt_le; intro K; apply A in K; lra). rmm.
  - intro H. apply B in H. rmm.
  - intro H. assert (x <= b) by (apply Rnot_lt_le; intro K; apply B in K; lra). rmm.
  - intros [H K]. apply A in H. apply B in K. revert O. rmm.
Qed.
(** The move of one step is towards the opening that is wanted, which is in the band. *)
Definition aim (p : R) (st : vstate) (pos : R) : R :=
  within 0 (relief_target (derive_curve c (g_crack c)) (derive_curve c (g_reseat c)) p st pos) 1.
Lemma aim_cases p st pos : 0 <= pos <= 1 ->
  aim p st pos = match st with V_CLOSED => 0 | V_OPEN => 1 | V_OPENING => opens c p | V_CLOSING => holds c p | V_TRANS => pos end.
Proof.
  intro P. destruct V as ((V1 & V2) & _). unfold aim, relief_target, opens, holds. fold pop s. rewrite !on_lift by lra. destruct st; try reflexivity; rnum; rmm.
Qed.
Let st_of (v : @rvalve R) p := relief_state c (derive_curve c (g_crack c)) (derive_curve c (g_reseat c)) p v.
Lemma aim_band p v : 0 <= w_pos v <= 1 -> opens c p <= aim p (st_of v p) (w_pos v) <= holds c p.
Proof.
  intro P. rewrite aim_cases by exact P. destruct (opens_facts p) as (F1 & F2 & F3 & F4 & F5). destruct (opens_lt p (w_pos v) P) as (L1 & L2 & L3 & L4 & _).
  unfold st_of, relief_state. set (gi := curve_pressure (g_pop c) (derive_curve c (g_crack c)) (w_pos v)) in *. set (gd := curve_pressure (g_pop c) (derive_curve c (g_reseat c)) (w_pos v)) in *. clearbody gi gd.
  change (p <~ g_full c) with (Rltb p (g_full c)). change (g_crack c <~ p) with (Rltb (g_crack c) p). change (g_full c <~ p) with (Rltb (g_full c) p). change (p <~ w_prev v) with (Rltb p (w_prev v)).
  change (p <~ g_reseat c) with (Rltb p (g_reseat c)). change (w_prev v <~ p) with (Rltb (w_prev v) p). change (gi <~ p) with (Rltb gi p). change (p <~ gd) with (Rltb p gd).
  destruct (w_state v);
    repeat match goal with |- context [Rltb ?x ?y] => destruct (Rltb_spec x y) end; cbv beta iota; try (specialize (F5 ltac:(lra))); try (specialize (F3 ltac:(lra))); try (specialize (F4 ltac:(lra)));
    try (specialize (L2 ltac:(lra))); try (specialize (L4 ltac:(lra))); lra.
Qed.
Lemma relief_moves dt p v : 0 <= g_rate c * dt -> 0 <= w_pos v <= 1 -> w_stuck v = false -> w_fail v = false ->
  w_pos (relief_update dt c p v) = within (w_pos v - g_rate c * dt) (aim p (st_of v p) (w_pos v)) (w_pos v + g_rate c * dt).
Proof.
  intros Hr P S F. unfold relief_update, rv_update. rewrite S, F. cbn [w_pos]. rewrite slew_clip by assumption. fold (aim p (relief_state c (derive_curve c (g_crack c)) (derive_curve c (g_reseat c)) p v) (w_pos v)).
  change (g_rate c *~ dt) with (g_rate c * dt). fold (st_of v p). pose proof (aim_band p v P) as B. destruct (opens_facts p) as (F1 & F2 & _). apply slewR; [exact P|exact Hr|lra].
Qed.
(** States in which the valve can be after a step. *)
Definition coherent (v : @rvalve R) : Prop :=
  0 <= w_pos v <= 1 /\
  match w_state v with
  | V_CLOSED => w_pos v = 0 | V_OPEN => w_pos v = 1
  | V_OPENING => w_pos v <= opens c (w_prev v) | V_CLOSING => holds c (w_prev v) <= w_pos v
  | V_TRANS => opens c (w_prev v) <= w_pos v <= holds c (w_prev v)
  end.
Lemma relief_coherent dt p v : 0 <= g_rate c * dt -> w_stuck v = false -> w_fail v = false -> coherent v ->
  coherent (relief_update dt c p v) /\ w_prev (relief_update dt c p v) = p /\
  w_pos (relief_update dt c p v) = within (w_pos v - g_rate c * dt) (within (opens c p) (w_pos v) (holds c p)) (w_pos v + g_rate c * dt).
Proof.
  intros Hr S F (P & C).
  assert (G : aim p (st_of v p) (w_pos v) = within (opens c p) (w_pos v) (holds c p) /\
    match st_of v p with V_CLOSED => holds c p = 0 \/ w_pos v = 0 /\ opens c p = 0 | V_OPEN => opens c p = 1 | V_OPENING => w_pos v <= opens c p | V_CLOSING => holds c p <= w_pos v | V_TRANS => opens c p <= w_pos v <= holds c p end).
  { rewrite aim_cases by exact P. destruct (opens_facts p) as (F1 & F2 & F3 & F4 & F5). destruct (opens_lt p (w_pos v) P) as (L1 & L2 & L3 & L4 & _).
    pose proof (opens_mono p (w_prev v)) as M1. pose proof (opens_mono (w_prev v) p) as M2.
    unfold st_of, relief_state. set (gi := curve_pressure (g_pop c) (derive_curve c (g_crack c)) (w_pos v)) in *. set (gd := curve_pressure (g_pop c) (derive_curve c (g_reseat c)) (w_pos v)) in *. clearbody gi gd.
    change (p <~ g_full c) with (Rltb p (g_full c)). change (g_crack c <~ p) with (Rltb (g_crack c) p). change (g_full c <~ p) with (Rltb (g_full c) p). change (p <~ w_prev v) with (Rltb p (w_prev v)).
    change (p <~ g_reseat c) with (Rltb p (g_reseat c)). change (w_prev v <~ p) with (Rltb (w_prev v) p). change (gi <~ p) with (Rltb gi p). change (p <~ gd) with (Rltb p gd).
    set (x := w_pos v) in *. set (y := w_prev v) in *. set (o := opens c p) in *. set (h := holds c p) in *. set (o' := opens c y) in *. set (h' := holds c y) in *. clearbody x y o h o' h'.
    destruct (w_state v);
    repeat match goal with |- context [Rltb ?x ?y] => destruct (Rltb_spec x y) end; cbv beta iota; try (specialize (F5 ltac:(lra))); try (specialize (F3 ltac:(lra))); try (specialize (F4 ltac:(lra)));
    try (specialize (L1 ltac:(lra))); try (specialize (L2 ltac:(lra))); try (specialize (L3 ltac:(lra))); try (specialize (L4 ltac:(lra))); try (specialize (M1 ltac:(lra))); try (specialize (M2 ltac:(lra)));
    split; lra || rmm. }
  destruct G as [G1 G2]. pose proof (relief_moves dt p v Hr P S F) as E. rewrite G1 in E. split; [|split].
  - assert (Q : 0 <= w_pos (relief_update dt c p v) <= 1).
    { unfold relief_update, rv_update. rewrite S, F. cbn [w_pos]. apply slew_range; [exact P|exact Hr]. }
    split; [exact Q|]. revert Q E. destruct (opens_facts p) as (F1 & F2 & _).
    unfold relief_update, rv_update. rewrite S, F. cbn [w_pos w_state w_prev]. fold (st_of v p). cbv beta.
    set (y := slew (w_pos v) (relief_target _ _ p _ (w_pos v)) _). clearbody y. intros Q E. unfold settle. change (n0 <~ y) with (Rltb 0 y). change (y <~ n1) with (Rltb y 1).
    set (x := w_pos v) in *. set (o := opens c p) in *. set (h := holds c p) in *. set (r := g_rate c * dt) in *. clearbody x o h r. clear G1.
    destruct (st_of v p); repeat match goal with |- context [Rltb ?x ?y] => destruct (Rltb_spec x y) end; cbv iota; revert E; rmm.
  - unfold relief_update, rv_update. rewrite S, F. reflexivity.
  - exact E.
Qed.
End UP.

Lemma fepsR : 0 < (feps : R) < 1 / 10.
Proof.
  unfold feps. rnum. unfold Rdec. cbv zeta. split; [apply Rdiv_lt_0_compat; apply IZR_lt; reflexivity|].
  match goal with |- ?a / ?b < _ => assert (B : 0 < b) by (apply IZR_lt; reflexivity); apply Rmult_lt_reg_r with b; [exact B|]; unfold Rdiv at 1; rewrite Rmult_assoc, Rinv_l by lra; rewrite Rmult_1_r end.
  match goal with |- IZR ?a < 1 / 10 * IZR ?b => assert (K : IZR (10 * a) < IZR b) by (apply IZR_lt; reflexivity); rewrite mult_IZR in K; lra end.
Qed.
Lemma relief_ok (c : @rcfg R) : relief_valid c = true -> rising c.
Proof.
  intro H. pose proof fepsR as E. unfold relief_valid, is_in_range in H. repeat rewrite andb_true_iff in H. destruct H as ((((H1 & H2) & H3) & (H4 & H4')) & H5).
  change (nopp feps <~ g_reseat c -~ g_crack c) with (Rltb (- feps) (g_reseat c - g_crack c)) in H2. change (nopp feps <~ g_crack c -~ g_full c) with (Rltb (- feps) (g_crack c - g_full c)) in H3.
  change (feps <=~ g_pop c) with (Rleb feps (g_pop c)) in H4. change (g_pop c <=~ n1 -~ feps) with (Rleb (g_pop c) (1 - feps)) in H4'. change (g_scale c <~ n1) with (Rltb (g_scale c) 1) in H5.
  destruct (Rltb_spec (- feps) (g_reseat c - g_crack c)); [discriminate|]. destruct (Rltb_spec (- feps) (g_crack c - g_full c)); [discriminate|].
  destruct (Rleb_spec feps (g_pop c)); [|discriminate]. destruct (Rleb_spec (g_pop c) (1 - feps)); [|discriminate]. destruct (Rltb_spec (g_scale c) 1); [discriminate|].
  unfold rising. lra.
Qed.
Lemma reg_ok (c : @rcfg R) : reg_valid c = true -> falling c.
Proof.
  intro H. pose proof fepsR as E. unfold reg_valid, is_in_range in H. repeat rewrite andb_true_iff in H. destruct H as ((((H1 & H2) & H3) & (H4 & H4')) & H5).
  change (nopp feps <~ g_full c -~ g_crack c) with (Rltb (- feps) (g_full c - g_crack c)) in H2. change (nopp feps <~ g_crack c -~ g_reseat c) with (Rltb (- feps) (g_crack c - g_reseat c)) in H3.
  change (feps <=~ g_pop c) with (Rleb feps (g_pop c)) in H4. change (g_pop c <=~ n1 -~ feps) with (Rleb (g_pop c) (1 - feps)) in H4'. change (g_scale c <~ n1) with (Rltb (g_scale c) 1) in H5.
  destruct (Rltb_spec (- feps) (g_full c - g_crack c)); [discriminate|]. destruct (Rltb_spec (- feps) (g_crack c - g_reseat c)); [discriminate|].
  destruct (Rleb_spec feps (g_pop c)); [|discriminate]. destruct (Rleb_spec (g_pop c) (1 - feps)); [|discriminate]. destruct (Rltb_spec (g_scale c) 1); [discriminate|].
  unfold falling. lra.
Qed.

(** ** The regulator valve is the relief valve with its pressures' signs turned *)
Definition turn (c : @rcfg R) : @rcfg R := mkrcfg (- g_reseat c) (- g_crack c) (- g_full c) (g_pop c) (g_scale c) (g_rate c).
Definition turnv (v : @rvalve R) : @rvalve R := mkrv (w_state v) (w_pos v) (- w_prev v) (w_stuck v) (w_fail v) (w_failv v).
Lemma turn_rising c : falling c -> rising (turn c).
Proof. unfold falling, rising, turn. cbn. lra. Qed.
Lemma turn_stroke a f p : a <> f -> stroke (- a) (- f) (- p) = stroke a f p.
Proof. intro. unfold stroke. field. lra. Qed.
Lemma turn_opens c p : falling c -> opens (turn c) (- p) = opens c p /\ holds (turn c) (- p) = holds c p.
Proof. intros (V & _). unfold opens, holds, turn. cbn [g_pop g_scale g_crack g_full g_reseat]. rewrite !turn_stroke by lra. split; reflexivity. Qed.
Lemma turn_curve c a : a <> g_full c -> 0 < g_pop c < 1 -> 1 <= g_scale c ->
  let u := derive_curve c a in
  derive_curve (turn c) (- a) = mkcurve (- u_m u) (- u_inv u) (u_b u) (- u_p u) (- u_nm u) (- u_ninv u) (u_nb u).
Proof.
  intros A P S. cbv zeta. pose proof (q_range (g_pop c) (g_scale c) P S) as Q. unfold derive_curve, turn. cbn [u_m u_inv u_b u_p u_nm u_ninv u_nb g_full g_scale g_pop]. rnum.
  set (f := g_full c) in *. set (s := g_scale c) in *. set (pop := g_pop c) in *. clearbody f s pop.
  assert (D : f - a <> 0) by lra. assert (D' : - f - - a <> 0) by lra.
  assert (M : 1 / (- f - - a) * s = - (1 / (f - a) * s)) by (field; lra). rewrite M.
  set (m := 1 / (f - a) * s) in *. assert (Hm : m <> 0) by (unfold m; apply Rmult_integral_contrapositive; split; [unfold Rdiv; rewrite Rmult_1_l; apply Rinv_neq_0_compat; exact D|lra]).
  assert (I : 1 / - m = - (1 / m)) by (field; exact Hm). rewrite I.
  assert (B : - - m * - a = - m * a) by ring. rewrite B.
  assert (Pm : (pop - - m * a) * - (1 / m) = - ((pop - - m * a) * (1 / m))) by ring. rewrite Pm.
  assert (F : f - (pop - - m * a) * (1 / m) = (f - a) * (1 - pop / s)) by (unfold m; field; repeat split; lra).
  set (pp := (pop - - m * a) * (1 / m)) in *. assert (F0 : f - pp <> 0) by (rewrite F; apply Rmult_integral_contrapositive; split; lra).
  assert (N1 : (1 - pop) / (- f - - pp) = - ((1 - pop) / (f - pp))) by (field; lra). rewrite N1.
  set (nm := (1 - pop) / (f - pp)) in *. assert (Hn : nm <> 0) by (unfold nm; apply Rmult_integral_contrapositive; split; [lra|apply Rinv_neq_0_compat; exact F0]).
  assert (N2 : 1 / - nm = - (1 / nm)) by (field; exact Hn). rewrite N2. f_equal. ring.
Qed.
Lemma Rltb_opp a b : Rltb (- a) (- b) = Rltb b a.
Proof. destruct (Rltb_spec (- a) (- b)), (Rltb_spec b a); try lra; reflexivity. Qed.
Lemma turn_pressure c a x : a <> g_full c -> 0 < g_pop c < 1 -> 1 <= g_scale c ->
  curve_pressure (g_pop c) (derive_curve (turn c) (- a)) x = - curve_pressure (g_pop c) (derive_curve c a) x.
Proof. intros A P S. rewrite turn_curve by assumption. unfold curve_pressure. cbn [u_b u_inv u_nb u_ninv]. destruct (x <=~ g_pop c); rnum; ring. Qed.
Lemma turn_on c a p : a <> g_full c -> 0 < g_pop c < 1 -> 1 <= g_scale c -> relief_on (derive_curve (turn c) (- a)) (- p) = reg_on (derive_curve c a) p.
Proof.
  intros A P S. rewrite turn_curve by assumption. unfold relief_on, reg_on. cbn [u_b u_m u_nb u_nm u_p]. set (u := derive_curve c a). clearbody u. rnum.
  destruct (Rleb_spec (- p) (- u_p u)), (Rleb_spec (u_p u) p); try (exfalso; lra); ring.
Qed.
Lemma reg_turn dt c p v : falling c -> 0 <= w_pos v <= 1 -> turnv (reg_update dt c p v) = relief_update dt (turn c) (- p) (turnv v).
Proof.
  intros V X. pose proof V as (O & P & S). unfold reg_update, relief_update.
  change (g_crack (turn c)) with (- g_crack c). change (g_reseat (turn c)) with (- g_reseat c). change (g_rate (turn c)) with (g_rate c).
  assert (E : relief_state (turn c) (derive_curve (turn c) (- g_crack c)) (derive_curve (turn c) (- g_reseat c)) (- p) (turnv v)
     = reg_state c (derive_curve c (g_reseat c)) (derive_curve c (g_crack c)) p v).
  { destruct (opens_lt (turn c) (turn_rising c V) (- p) (w_pos v) X) as (_ & _ & _ & _ & L). revert L.
    unfold relief_state, reg_state. change (w_pos (turnv v)) with (w_pos v). change (g_pop (turn c)) with (g_pop c). change (g_crack (turn c)) with (- g_crack c). change (g_reseat (turn c)) with (- g_reseat c).
    rewrite !turn_pressure by (assumption || lra). change (g_full (turn c)) with (- g_full c). change (w_prev (turnv v)) with (- w_prev v). change (w_state (turnv v)) with (w_state v).
    set (gi := curve_pressure (g_pop c) (derive_curve c (g_crack c)) (w_pos v)). set (gd := curve_pressure (g_pop c) (derive_curve c (g_reseat c)) (w_pos v)). clearbody gi gd. intro L.
    change (@nlt R RNum) with Rltb. rewrite !Rltb_opp.
    destruct (Rltb_spec p gi), (Rltb_spec gd p); try (exfalso; apply L; lra); reflexivity. }
  rewrite E. set (st := reg_state _ _ _ _ _). clearbody st.
  assert (T : relief_target (derive_curve (turn c) (- g_crack c)) (derive_curve (turn c) (- g_reseat c)) (- p) st (w_pos (turnv v))
     = reg_target (derive_curve c (g_reseat c)) (derive_curve c (g_crack c)) p st (w_pos v)).
  { unfold relief_target, reg_target. rewrite !turn_on by (assumption || lra). reflexivity. }
  unfold rv_update. rewrite T. change (w_stuck (turnv v)) with (w_stuck v). change (w_fail (turnv v)) with (w_fail v). change (w_pos (turnv v)) with (w_pos v). change (w_failv (turnv v)) with (w_failv v).
  destruct (w_stuck v); [reflexivity|]. destruct (w_fail v); reflexivity.
Qed.

(** ** C162 *)
(** The two curves: from shut at the start pressure to full open, steadily; what holds the valve
    open is never less than what opens it. *)
Theorem C162_curves : forall (c : @rcfg R) p p', (relief_valid c = true -> p <= p') -> (reg_valid c = true -> p' <= p) -> relief_valid c = true \/ reg_valid c = true ->
  0 <= opens c p <= holds c p /\ holds c p <= 1 /\ opens c p <= opens c p' /\ holds c p <= holds c p' /\
  opens c (g_crack c) = 0 /\ opens c (g_full c) = 1 /\ holds c (g_reseat c) = 0 /\ holds c (g_full c) = 1.
Proof.
  assert (A : forall c p p', rising c -> p <= p' -> 0 <= opens c p <= holds c p /\ holds c p <= 1 /\ opens c p <= opens c p' /\ holds c p <= holds c p' /\
    opens c (g_crack c) = 0 /\ opens c (g_full c) = 1 /\ holds c (g_reseat c) = 0 /\ holds c (g_full c) = 1).
  { intros c p p' V L. destruct (opens_facts c V p) as (F1 & F2 & _). destruct (opens_mono c V p p' L) as [M1 M2].
    destruct (opens_facts c V (g_crack c)) as (_ & _ & G1 & _). destruct (opens_facts c V (g_reseat c)) as (_ & _ & _ & G2 & _). destruct (opens_facts c V (g_full c)) as (_ & _ & _ & _ & G3).
    specialize (G1 (Rle_refl _)). specialize (G2 (Rle_refl _)). specialize (G3 (Rle_refl _)). tauto. }
  intros c p p' L1 L2 [H|H]; [apply A; [apply relief_ok; exact H|auto]|].
  pose proof (reg_ok c H) as V. specialize (L2 H). specialize (A (turn c) (- p) (- p') (turn_rising c V) ltac:(lra)).
  change (g_crack (turn c)) with (- g_crack c) in A. change (g_reseat (turn c)) with (- g_reseat c) in A. change (g_full (turn c)) with (- g_full c) in A.
  rewrite !(proj1 (turn_opens c _ V)), !(proj2 (turn_opens c _ V)) in A. exact A.
Qed.
Print Assumptions C162_curves.
(** In whatever state the valve is, if it has not failed it moves at its rate towards an opening
    that is neither below what the pressure opens nor above what it holds. *)
Theorem C162_step : forall (c : @rcfg R) dt p v, 0 <= g_rate c -> 0 <= dt -> 0 <= w_pos v <= 1 -> w_stuck v = false -> w_fail v = false ->
  (relief_valid c = true -> let y := w_pos (relief_update dt c p v) in 0 <= y <= 1 /\
     exists t, opens c p <= t <= holds c p /\ y = within (w_pos v - g_rate c * dt) t (w_pos v + g_rate c * dt)) /\
  (reg_valid c = true -> let y := w_pos (reg_update dt c p v) in 0 <= y <= 1 /\
     exists t, opens c p <= t <= holds c p /\ y = within (w_pos v - g_rate c * dt) t (w_pos v + g_rate c * dt)).
Proof.
  assert (A : forall c dt p v, rising c -> 0 <= g_rate c -> 0 <= dt -> 0 <= w_pos v <= 1 -> w_stuck v = false -> w_fail v = false ->
    let y := w_pos (relief_update dt c p v) in 0 <= y <= 1 /\ exists t, opens c p <= t <= holds c p /\ y = within (w_pos v - g_rate c * dt) t (w_pos v + g_rate c * dt)).
  { intros c dt p v V Hr D P S F. cbv zeta. pose proof (Rmult_le_pos _ _ Hr D) as H. split.
    - unfold relief_update, rv_update. rewrite S, F. cbn [w_pos]. apply slew_range; assumption.
    - eexists. split; [apply (aim_band c V p v P)|]. apply relief_moves; assumption. }
  intros c dt p v Hr D P S F. split; intro V; [apply A; try assumption; apply relief_ok; exact V|].
  apply reg_ok in V. cbv zeta. change (w_pos (reg_update dt c p v)) with (w_pos (turnv (reg_update dt c p v))). rewrite reg_turn by assumption.
  destruct (turn_opens c p V) as [<- <-]. apply (A (turn c) dt (- p) (turnv v) (turn_rising c V) Hr D P S F).
Qed.
Print Assumptions C162_step.
(** From shut or from full open on, whatever the pressures do: the valve keeps its opening while
    the pressure allows it, and otherwise goes to the nearest one that it allows, at its rate. *)
Definition ideal (c : @rcfg R) (x : R) (dp : R * R) : R :=
  within (x - g_rate c * fst dp) (within (opens c (snd dp)) x (holds c (snd dp))) (x + g_rate c * fst dp).
Theorem C162_hysteresis : forall (c : @rcfg R) history pos failv, 0 <= g_rate c -> (forall dp, In dp history -> 0 <= fst dp) -> pos = 0 \/ pos = 1 ->
  (relief_valid c = true -> w_pos (fold_left (fun v dp => relief_update (fst dp) c (snd dp) v) history (rv_init pos false false failv)) = fold_left (ideal c) history pos) /\
  (reg_valid c = true -> w_pos (fold_left (fun v dp => reg_update (fst dp) c (snd dp) v) history (rv_init pos false false failv)) = fold_left (ideal c) history pos).
Proof.
  intros c history pos failv Hr D P.
  assert (I : forall c, coherent c (rv_init pos false false failv) /\ w_stuck (rv_init pos false false failv) = false /\ w_fail (rv_init pos false false failv) = false).
  { intro c'. split; [|split; reflexivity]. unfold coherent, rv_init. cbn [w_state w_pos]. change (pos <=~ n0) with (Rleb pos 0). change (n1 <=~ pos) with (Rleb 1 pos).
    destruct P as [-> | ->]; [destruct (Rleb_spec 0 0); [split; lra|lra]|]. destruct (Rleb_spec 1 0); [lra|]. destruct (Rleb_spec 1 1); [split; lra|lra]. }
  assert (E : pos = w_pos (rv_init pos false false failv)) by reflexivity.
  split; intro V.
  - apply relief_ok in V. rewrite E at 2. clear E. specialize (I c). revert I. generalize (rv_init pos false false failv). clear P.
    induction history as [|dp history IH]; intros v (C & S & F); cbn [fold_left]; [reflexivity|].
    pose proof (Rmult_le_pos _ _ Hr (D dp (or_introl eq_refl))) as H. destruct (relief_coherent c V (fst dp) (snd dp) v H S F C) as (C' & _ & E).
    rewrite IH; [|intros; apply D; right; assumption|]. 2:{ split; [exact C'|]. unfold relief_update, rv_update. rewrite S, F. cbn [w_stuck w_fail]. auto. }
    f_equal. exact E.
  - apply reg_ok in V. pose proof (turn_rising c V) as V'. rewrite E at 2. clear E. specialize (I (turn c)).
    assert (I' : coherent (turn c) (turnv (rv_init pos false false failv)) /\ w_stuck (rv_init pos false false failv) = false /\ w_fail (rv_init pos false false failv) = false).
    { destruct I as (I1 & I2). split; [|exact I2]. revert I1. unfold coherent, rv_init, turnv. cbn [w_state w_pos w_prev]. change (pos <=~ n0) with (Rleb pos 0). change (n1 <=~ pos) with (Rleb 1 pos).
      destruct P as [-> | ->]; [destruct (Rleb_spec 0 0); [auto|lra]|]. destruct (Rleb_spec 1 0); [lra|]. destruct (Rleb_spec 1 1); [auto|lra]. }
    clear I. revert I'. generalize (rv_init pos false false failv). clear P.
    induction history as [|dp history IH]; intros v (C & S & F); cbn [fold_left]; [reflexivity|].
    pose proof (Rmult_le_pos _ _ Hr (D dp (or_introl eq_refl))) as H. destruct (relief_coherent (turn c) V' (fst dp) (- snd dp) (turnv v) H S F C) as (C' & _ & E).
    assert (X : 0 <= w_pos v <= 1) by apply C. rewrite <- reg_turn in C', E by assumption.
    rewrite IH; [|intros; apply D; right; assumption|]. 2:{ split; [exact C'|]. unfold reg_update, rv_update. rewrite S, F. cbn [w_stuck w_fail]. auto. }
    f_equal. rewrite (proj1 (turn_opens c (snd dp) V)), (proj2 (turn_opens c (snd dp) V)) in E. exact E.
Qed.
Print Assumptions C162_hysteresis.
(** Given the time the valve is full open at its full open pressure and shut at its reseat
    pressure, whatever state it was in. *)
Theorem C162_settles : forall (c : @rcfg R) dt p v n, 0 <= g_rate c -> 0 <= dt -> 0 <= w_pos v <= 1 -> w_stuck v = false -> w_fail v = false -> 1 <= INR n * (g_rate c * dt) ->
  (relief_valid c = true -> let y := w_pos (repeat_n n (relief_update dt c p) v) in (g_full c <= p -> y = 1) /\ (p <= g_reseat c -> y = 0)) /\
  (reg_valid c = true -> let y := w_pos (repeat_n n (reg_update dt c p) v) in (p <= g_full c -> y = 1) /\ (g_reseat c <= p -> y = 0)).
Proof.
  intros c dt p v n Hr D P S F N. pose proof (Rmult_le_pos _ _ Hr D) as H.
  assert (G : forall (f : @rvalve R -> @rvalve R) z, 0 <= z <= 1 ->
    (forall v, 0 <= w_pos v <= 1 -> w_stuck v = false -> w_fail v = false -> w_pos (f v) = within (w_pos v - g_rate c * dt) z (w_pos v + g_rate c * dt) /\ w_stuck (f v) = false /\ w_fail (f v) = false) ->
    w_pos (repeat_n n f v) = z).
  { intros f z Z K. assert (Q : forall m w, 0 <= w_pos w <= 1 -> w_stuck w = false -> w_fail w = false -> w_pos (repeat_n m f w) = repeat_n m (fun x => slew x z (g_rate c * dt)) (w_pos w)).
    { induction m as [|m IH]; intros w W1 W2 W3; cbn [repeat_n]; [reflexivity|]. destruct (K w W1 W2 W3) as (K1 & K2 & K3). rewrite <- slewR in K1 by assumption.
      rewrite IH; [rewrite K1; reflexivity| |exact K2|exact K3]. rewrite K1. apply slew_range; assumption. }
    rewrite Q by assumption. pose proof (slew_reach n (w_pos v) z (g_rate c * dt) P H Z) as E. rewrite Rmax_left in E by (unfold Rabs; destruct (Rcase_abs _); lra).
    set (y := repeat_n _ _ _) in *. clearbody y. revert E. rmm. }
  assert (M : forall u w st t, w_stuck u = false -> w_fail u = false -> w_stuck (rv_update dt (g_rate c) st t w u) = false /\ w_fail (rv_update dt (g_rate c) st t w u) = false).
  { intros u w st t U1 U2. unfold rv_update. rewrite U1, U2. cbn [w_stuck w_fail]. auto. }
  split; intro V; cbv zeta.
  - pose proof (opens_facts c (relief_ok c V) p) as (_ & _ & _ & F4 & F5). pose proof (opens_facts c (relief_ok c V) p) as (F1 & F2 & _).
    assert (Q : forall z, opens c p = z -> holds c p = z -> w_pos (repeat_n n (relief_update dt c p) v) = z).
    { intros z E1 E2. apply G; [lra|]. intros w W1 W2 W3. destruct (C162_step c dt p w Hr D W1 W2 W3) as [A _]. destruct (A V) as (_ & t & T1 & T2).
      replace z with t by lra. split; [exact T2|]. apply M; assumption. }
    split; intro L; [destruct (F5 L); apply Q; assumption|]. specialize (F4 L). apply Q; lra.
  - destruct (turn_opens c p (reg_ok c V)) as [T1 T2]. pose proof (opens_facts (turn c) (turn_rising c (reg_ok c V)) (- p)) as (_ & _ & _ & F4 & F5). pose proof (opens_facts (turn c) (turn_rising c (reg_ok c V)) (- p)) as (F1 & F2 & _).
    change (g_full (turn c)) with (- g_full c) in *. change (g_reseat (turn c)) with (- g_reseat c) in *. rewrite T1, T2 in *.
    assert (Q : forall z, opens c p = z -> holds c p = z -> w_pos (repeat_n n (reg_update dt c p) v) = z).
    { intros z E1 E2. apply G; [lra|]. intros w W1 W2 W3. destruct (C162_step c dt p w Hr D W1 W2 W3) as [_ A]. destruct (A V) as (_ & t & T1' & T2').
      replace z with t by lra. split; [exact T2'|]. apply M; assumption. }
    split; intro L; [destruct (F5 ltac:(lra)); apply Q; assumption|]. specialize (F4 ltac:(lra)). apply Q; lra.
Qed.
Print Assumptions C162_settles.
(** A stuck valve stays, one that fails to a position is there. *)
Theorem C162_failed : forall (c : @rcfg R) dt p v,
  (w_stuck v = true -> w_pos (relief_update dt c p v) = w_pos v /\ w_pos (reg_update dt c p v) = w_pos v) /\
  (w_stuck v = false -> w_fail v = true -> w_pos (relief_update dt c p v) = within 0 (w_failv v) 1 /\ w_pos (reg_update dt c p v) = within 0 (w_failv v) 1).
Proof.
  intros c dt p v. unfold relief_update, reg_update, rv_update. split; [intros ->; split; reflexivity|]. intros -> ->. cbn [w_pos]. rewrite limit_within by (rnum; lra). split; reflexivity.
Qed.
Print Assumptions C162_failed.
(** The pressure the valve goes by: the sensed difference, with its malfunction's offset, over the
    set pressure and the trim of the inlet's pressure. *)
Theorem C162_pressure : forall (p0 p2 p3 : R) (malf : bool) (malfv setp c0 c1 : R),
  control_pressure p0 p2 p3 malf malfv setp c0 c1 = (p2 - p3) + (if malf then malfv else 0) - setp - (c0 + c1 * p0).
Proof. intros. unfold control_pressure. destruct malf; rnum; ring. Qed.
Print Assumptions C162_pressure.
(** Started part way in the band, the valve does not keep its opening but goes to the opening curve. *)
Definition relief0 : @rcfg R := mkrcfg 1 2 3 (1 / 2) 1 1.
Lemma relief0_valid : relief_valid relief0 = true.
Proof.
  unfold relief_valid, is_in_range, relief0. cbn [g_reseat g_crack g_full g_pop g_scale]. pose proof fepsR as E. set (e := feps) in *. clearbody e. rnum.
  rewrite !Rltb_false by lra. match goal with |- context [Rleb ?a ?b && Rleb ?x ?y] => destruct (Rleb_spec a b); [|lra]; destruct (Rleb_spec x y); [|lra] end. reflexivity.
Qed.
Theorem C162_start_refuted : exists (c : @rcfg R) dt p pos, relief_valid c = true /\ 0 <= g_rate c /\ 0 <= dt /\ 0 < pos < 1 /\
  opens c p <= pos <= holds c p /\ w_pos (relief_update dt c p (rv_init pos false false 0)) = 0.
Proof.
  exists relief0, 1, 2, (1 / 2). split; [exact relief0_valid|]. cbn [g_rate relief0]. split; [lra|]. split; [lra|]. split; [lra|].
  assert (O : opens relief0 2 = 0) by (apply (opens_facts relief0 (relief_ok _ relief0_valid) 2); cbn; lra).
  assert (H : holds relief0 2 = 1 / 2).
  { unfold holds, relief0, stroke, lift. cbn [g_pop g_scale g_reseat g_full]. replace ((2 - 1) / (3 - 1)) with (1 / 2) by lra. replace (1 / 2 / 1) with (1 / 2) by lra. destruct (Rle_dec (1 / 2) (1 / 2)); [|lra]. rmm. }
  rewrite O, H. split; [lra|]. pose proof (relief_ok _ relief0_valid) as V.
  rewrite (relief_moves relief0 V); [|cbn; lra|cbn; lra|reflexivity|reflexivity]. rewrite aim_cases; [|exact V|cbn; lra].
  unfold rv_init, relief_state. cbn [w_state w_prev w_pos g_full g_crack g_reseat relief0]. change (1 / 2 <=~ n0) with (Rleb (1 / 2) 0). change (n1 <=~ 1 / 2) with (Rleb 1 (1 / 2)). destruct (Rleb_spec (1 / 2) 0) as [Z1|Z1]; [lra|]. destruct (Rleb_spec 1 (1 / 2)) as [Z2|Z2]; [lra|].
  change (3 <~ 2) with (Rltb 3 2). change (2 <~ n0) with (Rltb 2 0). rewrite !Rltb_false by lra. rewrite O. change (g_rate relief0) with 1. rmm.
Qed.
Print Assumptions C162_start_refuted.
Example C162_nonvacuous : relief_valid relief0 = true /\ reg_valid (mkrcfg 3 2 1 (1 / 2) 1 1 : @rcfg R) = true.
Proof.
  split; [exact relief0_valid|]. unfold reg_valid, is_in_range. cbn [g_reseat g_crack g_full g_pop g_scale]. pose proof fepsR as E. set (e := feps) in *. clearbody e. rnum.
  rewrite !Rltb_false by lra. match goal with |- context [Rleb ?a ?b && Rleb ?x ?y] => destruct (Rleb_spec a b); [|lra]; destruct (Rleb_spec x y); [|lra] end. reflexivity.
Qed.
