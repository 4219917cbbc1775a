(** C190-C192: chemical reactions in a reactor, what it does to its nodes, and the defined
    reactions. *)
From Coq Require Import Floats.
From Coq Require Import Reals Lra Lia List Arith Bool ZArith.
From Verif Require Import Num Ord MathUtil Props_Math Spec_Valve Props_Valve Props_Thermal FluidFlow Props_FluidFlow FluidSorb Props_FluidSorb Props_FluidSource Props_FluidBed FluidReact.
Import ListNotations.
Local Open Scope R_scope.

(** ** Updates at an index *)
Lemma at_len {A} (l : list A) i f : length (at_index l i f) = length l.
Proof. revert i. induction l as [|x l IH]; intros [|i]; cbn; auto. Qed.
Lemma at_nth {A} (l : list A) i f d : forall j, (i < length l)%nat ->
  nth j (at_index l i f) d = if Nat.eqb j i then f (nth j l d) else nth j l d.
Proof.
  revert i. induction l as [|x l IH]; intros [|i] j H; cbn [length] in H; try lia.
  - cbn [at_index]. destruct j; reflexivity.
  - cbn [at_index]. destruct j as [|j]; [reflexivity|]. cbn [nth Nat.eqb]. apply IH. lia.
Qed.
Lemma at_map {A B} (g : A -> B) (l : list A) i f : (forall x, g (f x) = g x) -> map g (at_index l i f) = map g l.
Proof. intro H. revert i. induction l as [|x l IH]; intros [|i]; cbn; rewrite ?H, ?IH; reflexivity. Qed.
Lemma at_sum (g : @rcomp R -> R) (l : list (@rcomp R)) i f d : (forall x, g (f x) = g x + d) -> (i < length l)%nat ->
  total (map g (at_index l i f)) = total (map g l) + d.
Proof.
  intro H. revert i. induction l as [|x l IH]; intros [|i] L; cbn [length] in L; try lia; cbn [at_index map].
  - cbn [total fold_right]. unfold total. cbn [fold_right]. rewrite H. ring.
  - unfold total in *. cbn [fold_right]. rewrite IH by lia. ring.
Qed.

(** ** C190: the reactions *)
Section REACTIONS.
Variable eff : @rxn R -> list (@rcomp R) -> R.
Notation reactR := (react1 eff).
Lemma ninesR : (four_nines : R) = 9999 / 10000.
Proof. unfold four_nines. rnum. unfold Rdec. cbn [Z.leb Z.compare]. change (10 ^ 4)%Z with 10000%Z. lra. Qed.
Definition wt (l : list (@rcomp R)) i : R := k_w (the l i).
Definition tot (l : list (@rcomp R)) i : R := k_total (the l i).
Definition mass (l : list (@rcomp R)) i : R := k_mass (the l i).
Definition fit_rxn (len : nat) (r : @rxn R) : Prop :=
  (x_a r < len)%nat /\ (x_b r < len)%nat /\ (x_p r < len)%nat /\ (forall j, x_q r = Some j -> (j < len)%nat) /\
  x_a r <> x_b r /\ 0 < m_a r /\ 0 < m_b r /\ 0 < m_p r /\ 0 <= m_q r.
(** How far a reaction goes, in kmol: four nines of the reagent, or the efficiency's part of the
    reactant. *)
Definition extent (r : @rxn R) (l : list (@rcomp R)) : R :=
  Rmin (9999 / 10000 * tot l (x_b r) / (m_b r * wt l (x_b r)))
       (Rmin (9999 / 10000) (eff r l) * tot l (x_a r) / (m_a r * wt l (x_a r))).
(** The mass a compound gains per kmol of reaction. *)
Definition net (r : @rxn R) (l : list (@rcomp R)) (i : nat) : R :=
  (if Nat.eqb i (x_p r) then m_p r * wt l i else 0) +
  (match x_q r with Some j => if Nat.eqb i j then m_q r * wt l i else 0 | None => 0 end) -
  (if Nat.eqb i (x_a r) then m_a r * wt l i else 0) - (if Nat.eqb i (x_b r) then m_b r * wt l i else 0).
Lemma Rmin_scale k a b : 0 < k -> k * Rmin a b = Rmin (k * a) (k * b).
Proof. intro K. unfold Rmin. destruct (Rle_dec a b), (Rle_dec (k * a) (k * b)); try reflexivity; nra. Qed.
Lemma reagent_extent r l : 0 < wt l (x_a r) -> 0 < wt l (x_b r) -> 0 < m_a r -> 0 < m_b r ->
  reagent_mass eff r l = m_b r * wt l (x_b r) * extent r l.
Proof.
  intros WA WB A B. unfold reagent_mass, extent. rewrite !nminR, ninesR. unfold ratio_a, ratio_b.
  fold (wt l (x_a r)). fold (wt l (x_b r)). fold (tot l (x_a r)). fold (tot l (x_b r)).
  set (wa := wt l (x_a r)) in *. set (wb := wt l (x_b r)) in *. clearbody wa wb.
  assert (0 < m_b r * wb) by nra. assert (0 < m_a r * wa) by nra.
  rewrite (Rmin_scale (m_b r * wb)) by assumption.
  change (Rmin (tot l (x_b r) * (9999 / 10000)) (tot l (x_a r) * Rmin (9999 / 10000) (eff r l) * (m_b r * wb) / (m_a r * wa)) =
    Rmin (m_b r * wb * (9999 / 10000 * tot l (x_b r) / (m_b r * wb))) (m_b r * wb * (Rmin (9999 / 10000) (eff r l) * tot l (x_a r) / (m_a r * wa)))).
  f_equal; field; lra.
Qed.
Lemma the_at (l : list (@rcomp R)) i f j : (i < length l)%nat -> the (at_index l i f) j = if Nat.eqb j i then f (the l j) else the l j.
Proof. intro H. unfold the. apply at_nth. exact H. Qed.
Lemma the_snap (l : list (@rcomp R)) i j : (i < length l)%nat -> the (snap l i) j =
  if Nat.eqb j i then (fun c : @rcomp R => if k_total c <~ neps then mkrcomp (k_fluid c) (k_w c) n0 (k_mass c) else c) (the l j) else the l j.
Proof. apply the_at. Qed.
Definition ends (r : @rxn R) (n : R) (l : list (@rcomp R)) : list (@rcomp R) :=
  snap (snap (gain (lose (lose l (x_a r) (m_a r * wt l (x_a r) * n)) (x_b r) (m_b r * wt l (x_b r) * n)) (x_p r) (m_p r * wt l (x_p r) * n)) (x_a r)) (x_b r).
Lemma react1_eq r l q : fit_rxn (length l) r -> (forall i, (i < length l)%nat -> 0 < wt l i) ->
  reactR r (l, q) =
  (match x_q r with Some j => gain (ends r (extent r l) l) j (m_q r * wt l j * extent r l) | None => ends r (extent r l) l end,
   q + f_heat r * 1000000 * extent r l).
Proof.
  intros (A & B & P & Q & D & MA & MB & MP & MQ) W.
  pose proof (W _ A) as WA. pose proof (W _ B) as WB. pose proof (W _ P) as WP.
  unfold react1. cbv zeta. rewrite (reagent_extent r l WA WB MA MB), megaR. unfold ratio_a, ratio_b, ratio_p.
  fold (wt l (x_a r)). fold (wt l (x_b r)). fold (wt l (x_p r)). set (n := extent r l). clearbody n.
  replace (m_b r * wt l (x_b r) * n *~ (m_a r *~ wt l (x_a r)) /~ (m_b r *~ wt l (x_b r))) with (m_a r * wt l (x_a r) * n)
    by (rnum; field; lra).
  replace (m_b r * wt l (x_b r) * n *~ (m_p r *~ wt l (x_p r)) /~ (m_b r *~ wt l (x_b r))) with (m_p r * wt l (x_p r) * n)
    by (rnum; field; lra).
  replace (q +~ f_heat r /~ m_p r *~ 1000000 *~ (m_p r * wt l (x_p r) * n) /~ wt l (x_p r)) with (q + f_heat r * 1000000 * n)
    by (rnum; field; lra).
  fold (ends r n l). destruct (x_q r) as [j|]; [|reflexivity]. f_equal. fold (wt l j).
  replace (m_b r * wt l (x_b r) * n *~ (m_q r *~ wt l j) /~ (m_b r *~ wt l (x_b r))) with (m_q r * wt l j * n)
    by (rnum; field; lra). reflexivity.
Qed.
(** Every compound gains by its stoichiometry, and the heat by the extent; the totals follow but
    that the reactant's and the reagent's are cleared below epsilon. *)
Theorem C190_stoichiometry : forall r l q, fit_rxn (length l) r -> (forall i, (i < length l)%nat -> 0 < wt l i) ->
  let s := reactR r (l, q) in let n := extent r l in
  snd s = q + f_heat r * 1000000 * n /\ length (fst s) = length l /\ map k_w (fst s) = map k_w l /\ map k_fluid (fst s) = map k_fluid l /\
  (forall i, mass (fst s) i = mass l i + n * net r l i) /\
  (forall i, i <> x_a r -> i <> x_b r -> tot (fst s) i = tot l i + n * net r l i).
Proof.
  intros r l q F W s n. unfold s. rewrite (react1_eq r l q F W). fold n. clearbody n. cbn [fst snd]. split; [reflexivity|].
  destruct F as (A & B & P & Q & D & _).
  assert (LE : length (ends r n l) = length l) by (unfold ends, snap, gain, lose; rewrite !at_len; reflexivity).
  assert (KE : forall B (g : @rcomp R -> B), (forall f w t1 m1 t2 m2, g (mkrcomp f w t1 m1) = g (mkrcomp f w t2 m2)) ->
               map g (ends r n l) = map g l).
  { intros B0 g G. unfold ends, snap, gain, lose. rewrite !at_map; try reflexivity; intros [f w t m]; cbn [k_fluid k_w k_total k_mass]; try apply G.
    all: destruct (_ <~ _); [apply G|reflexivity]. }
  assert (ME : forall i, mass (ends r n l) i = mass l i +
    n * ((if Nat.eqb i (x_p r) then m_p r * wt l i else 0) - (if Nat.eqb i (x_a r) then m_a r * wt l i else 0) - (if Nat.eqb i (x_b r) then m_b r * wt l i else 0))).
  { intro i. unfold mass, ends. rewrite the_snap by (unfold snap, gain, lose; rewrite !at_len; exact B).
    rewrite the_snap by (unfold gain, lose; rewrite !at_len; exact A).
    unfold gain. rewrite the_at by (unfold lose; rewrite !at_len; exact P).
    unfold lose. rewrite the_at by (rewrite at_len; exact B). rewrite the_at by exact A.
    assert (SN : forall c : @rcomp R, k_mass (if k_total c <~ neps then mkrcomp (k_fluid c) (k_w c) n0 (k_mass c) else c) = k_mass c)
      by (intro c; destruct (k_total c <~ neps); reflexivity).
    destruct (Nat.eqb_spec i (x_b r)) as [E1|E1], (Nat.eqb_spec i (x_a r)) as [E2|E2], (Nat.eqb_spec i (x_p r)) as [E3|E3];
      rewrite ?SN; cbn [k_mass]; rewrite ?SN; cbn [k_mass]; try (exfalso; congruence); try rewrite <- E1; try rewrite <- E2; try rewrite <- E3; rnum; ring. }
  assert (TE : forall i, i <> x_a r -> i <> x_b r -> tot (ends r n l) i = tot l i + n * (if Nat.eqb i (x_p r) then m_p r * wt l i else 0)).
  { intros i N1 N2. unfold tot, ends. rewrite the_snap by (unfold snap, gain, lose; rewrite !at_len; exact B).
    rewrite the_snap by (unfold gain, lose; rewrite !at_len; exact A).
    unfold gain. rewrite the_at by (unfold lose; rewrite !at_len; exact P).
    unfold lose. rewrite the_at by (rewrite at_len; exact B). rewrite the_at by exact A.
    destruct (Nat.eqb_spec i (x_b r)); [contradiction|]. destruct (Nat.eqb_spec i (x_a r)); [contradiction|].
    destruct (Nat.eqb_spec i (x_p r)) as [E3|E3]; cbn [k_total]; [rewrite <- E3|]; rnum; ring. }
  unfold net. destruct (x_q r) as [j|] eqn:J.
  - specialize (Q j eq_refl). split; [unfold gain; rewrite at_len; exact LE|].
    split; [unfold gain; rewrite at_map by reflexivity; apply KE; reflexivity|].
    split; [unfold gain; rewrite at_map by reflexivity; apply KE; reflexivity|].
    split; intros i; [|intros N1 N2].
    + unfold mass at 1, gain. rewrite the_at by (rewrite LE; exact Q). destruct (Nat.eqb_spec i j) as [->|NE]; cbn [k_mass].
      * fold (mass (ends r n l) j). rewrite ME. rnum. ring.
      * fold (mass (ends r n l) i). rewrite ME. ring.
    + unfold tot at 1, gain. rewrite the_at by (rewrite LE; exact Q).
      destruct (Nat.eqb_spec i (x_a r)); [contradiction|]. destruct (Nat.eqb_spec i (x_b r)); [contradiction|].
      destruct (Nat.eqb_spec i j) as [->|NE]; cbn [k_total].
      * fold (tot (ends r n l) j). rewrite TE by assumption. rnum. ring.
      * fold (tot (ends r n l) i). rewrite TE by assumption. ring.
  - split; [exact LE|]. split; [apply KE; reflexivity|]. split; [apply KE; reflexivity|].
    split; intros i; [rewrite ME; ring|]. intros N1 N2. rewrite TE by assumption.
    destruct (Nat.eqb_spec i (x_a r)); [contradiction|]. destruct (Nat.eqb_spec i (x_b r)); [contradiction|]. ring.
Qed.
Theorem C190_cleared : forall r l q, fit_rxn (length l) r -> (forall i, (i < length l)%nat -> 0 < wt l i) ->
  forall i, i = x_a r \/ i = x_b r -> (forall j, x_q r = Some j -> i <> j) ->
  let left := tot l i + extent r l * net r l i in
  (left < Reps -> tot (fst (reactR r (l, q))) i = 0) /\ (Reps <= left -> tot (fst (reactR r (l, q))) i = left).
Proof.
  intros r l q F W i AB NQ. rewrite (react1_eq r l q F W). cbn [fst]. destruct F as (A & B & P & Q & D & _). set (n := extent r l). clearbody n.
  assert (LE : length (ends r n l) = length l) by (unfold ends, snap, gain, lose; rewrite !at_len; reflexivity).
  assert (TE : tot (ends r n l) i = if Rltb (tot l i + n * net r l i) Reps then 0 else tot l i + n * net r l i).
  { unfold tot, ends. rewrite the_snap by (unfold snap, gain, lose; rewrite !at_len; exact B).
    rewrite the_snap by (unfold gain, lose; rewrite !at_len; exact A).
    unfold gain. rewrite the_at by (unfold lose; rewrite !at_len; exact P).
    unfold lose. rewrite the_at by (rewrite at_len; exact B). rewrite the_at by exact A.
    assert (SN : forall c : @rcomp R, k_total (if k_total c <~ neps then mkrcomp (k_fluid c) (k_w c) n0 (k_mass c) else c) = if Rltb (k_total c) Reps then 0 else k_total c)
      by (intro c; change (k_total c <~ neps) with (Rltb (k_total c) Reps); destruct (Rltb (k_total c) Reps); reflexivity).
    assert (E0 : match x_q r with Some j => if Nat.eqb i j then m_q r * wt l i else 0 | None => 0 end = 0).
    { destruct (x_q r) as [j|]; [|reflexivity]. specialize (NQ j eq_refl). destruct (Nat.eqb_spec i j); [contradiction|reflexivity]. }
    unfold net. rewrite E0.
    destruct (Nat.eqb_spec i (x_b r)) as [E1|E1], (Nat.eqb_spec i (x_a r)) as [E2|E2], (Nat.eqb_spec i (x_p r)) as [E3|E3];
      try (exfalso; destruct AB; congruence); rewrite SN; cbn [k_total]; try rewrite <- E1; try rewrite <- E2; try rewrite <- E3;
      match goal with |- (if Rltb ?x Reps then 0 else ?x) = (if Rltb ?y Reps then 0 else ?y) => replace x with y by (rnum; ring); reflexivity end. }
  assert (TE2 : tot (match x_q r with Some j => gain (ends r n l) j (m_q r * wt l j * n) | None => ends r n l end) i = tot (ends r n l) i).
  { destruct (x_q r) as [j|] eqn:J; [|reflexivity]. specialize (NQ j eq_refl). specialize (Q j eq_refl).
    unfold tot at 1, gain. rewrite the_at by (rewrite LE; exact Q). destruct (Nat.eqb_spec i j); [contradiction|reflexivity]. }
  rewrite TE2, TE. cbv zeta. destruct (Rltb_spec (tot l i + n * net r l i) Reps); split; intro; try lra; reflexivity.
Qed.
(** Nothing is overdrawn. *)
Lemma extent_bounds r l : 0 < wt l (x_a r) -> 0 < wt l (x_b r) -> 0 < m_a r -> 0 < m_b r ->
  0 <= tot l (x_a r) -> 0 <= tot l (x_b r) -> 0 <= eff r l ->
  0 <= extent r l /\ m_a r * wt l (x_a r) * extent r l <= tot l (x_a r) /\ m_b r * wt l (x_b r) * extent r l <= tot l (x_b r) /\
  m_a r * wt l (x_a r) * extent r l <= eff r l * tot l (x_a r).
Proof.
  intros WA WB A B TA TB E. unfold extent.
  set (wa := wt l (x_a r)) in *. set (wb := wt l (x_b r)) in *. set (ta := tot l (x_a r)) in *. set (tb := tot l (x_b r)) in *. set (e := eff r l) in *.
  clearbody wa wb ta tb e. assert (KB : 0 < m_b r * wb) by nra. assert (KA : 0 < m_a r * wa) by nra.
  set (kb := m_b r * wb) in *. set (ka := m_a r * wa) in *. clearbody ka kb.
  set (f := Rmin (9999 / 10000) e). assert (F : 0 <= f <= 9999 / 10000 /\ f <= e) by (unfold f; mm). clearbody f. destruct F as [F1 F2].
  assert (X1 : 0 <= 9999 / 10000 * tb / kb) by (unfold Rdiv; apply Rmult_le_pos; [lra|left; apply Rinv_0_lt_compat; exact KB]).
  assert (X2 : 0 <= f * ta / ka) by (unfold Rdiv; apply Rmult_le_pos; [nra|left; apply Rinv_0_lt_compat; exact KA]).
  pose proof (Rmin_l (9999 / 10000 * tb / kb) (f * ta / ka)) as L1. pose proof (Rmin_r (9999 / 10000 * tb / kb) (f * ta / ka)) as L2.
  assert (L0 : 0 <= Rmin (9999 / 10000 * tb / kb) (f * ta / ka)) by (apply Rmin_glb; assumption).
  set (n := Rmin _ _) in *. clearbody n. split; [exact L0|].
  assert (Y2 : ka * n <= f * ta). { replace (f * ta) with (ka * (f * ta / ka)) by (field; lra). apply Rmult_le_compat_l; lra. }
  assert (Y1 : kb * n <= 9999 / 10000 * tb). { replace (9999 / 10000 * tb) with (kb * (9999 / 10000 * tb / kb)) by (field; lra). apply Rmult_le_compat_l; lra. }
  assert (f * ta <= ta) by nra. assert (f * ta <= e * ta) by nra. repeat split; lra.
Qed.
Theorem C190_positive : forall r l q, fit_rxn (length l) r -> (forall i, (i < length l)%nat -> 0 < wt l i) ->
  (forall i, 0 <= tot l i) -> 0 <= eff r l -> forall i, 0 <= tot (fst (reactR r (l, q))) i.
Proof.
  intros r l q F W TN E i. rewrite (react1_eq r l q F W). cbn [fst]. pose proof F as (A & B & P & Q & D & MA & MB & MP & MQ).
  destruct (extent_bounds r l (W _ A) (W _ B) MA MB (TN _) (TN _) E) as (N0 & NA & NB & _). set (n := extent r l) in *. clearbody n.
  assert (TE : forall i, 0 <= tot (ends r n l) i).
  { clear i. intro i. unfold tot, ends.
    assert (SN : forall l i j, (i < length l)%nat -> 0 <= k_total (the l j) -> 0 <= k_total (the (snap l i) j)).
    { intros l0 i0 j L Z. unfold snap. rewrite the_at by exact L. destruct (Nat.eqb j i0); [|exact Z].
      destruct (_ <~ _); [cbn [k_total]; rnum; lra|exact Z]. }
    apply SN; [unfold snap, gain, lose; rewrite !at_len; exact B|]. apply SN; [unfold gain, lose; rewrite !at_len; exact A|].
    unfold gain. rewrite the_at by (unfold lose; rewrite !at_len; exact P).
    assert (Z : 0 <= k_total (the (lose (lose l (x_a r) (m_a r * wt l (x_a r) * n)) (x_b r) (m_b r * wt l (x_b r) * n)) i)).
    { unfold lose. rewrite the_at by (rewrite at_len; exact B). rewrite the_at by exact A.
      destruct (Nat.eqb_spec i (x_b r)) as [->|E1]; [destruct (Nat.eqb_spec (x_b r) (x_a r)); [congruence|]|destruct (Nat.eqb_spec i (x_a r)) as [->|E2]];
        cbn [k_total].
      - change (0 <= tot l (x_b r) - m_b r * wt l (x_b r) * n). lra.
      - change (0 <= tot l (x_a r) - m_a r * wt l (x_a r) * n). lra.
      - apply TN. }
    destruct (Nat.eqb_spec i (x_p r)) as [->|E3]; [|exact Z]. cbn [k_total].
    match type of Z with 0 <= ?z => change (0 <= z + m_p r * wt l (x_p r) * n) end.
    pose proof (W _ P). assert (0 <= m_p r * wt l (x_p r) * n) by (apply Rmult_le_pos; [nra|exact N0]). lra. }
  destruct (x_q r) as [j|]; [|apply TE].
  assert (LE : length (ends r n l) = length l) by (unfold ends, snap, gain, lose; rewrite !at_len; reflexivity).
  unfold tot, gain. rewrite the_at by (rewrite LE; apply Q; reflexivity). destruct (Nat.eqb_spec i j) as [->|]; [|apply TE]. cbn [k_total].
  change (0 <= tot (ends r n l) j + m_q r * wt l j * n). pose proof (TE j). pose proof (W _ (Q j eq_refl)).
  assert (0 <= m_q r * wt l j * n) by (apply Rmult_le_pos; [nra|exact N0]). lra.
Qed.
(** A reaction whose masses balance leaves the sum of all the masses alone; so does any sequence. *)
Definition imbalance (r : @rxn R) (l : list (@rcomp R)) : R :=
  m_p r * wt l (x_p r) + match x_q r with Some j => m_q r * wt l j | None => 0 end - m_a r * wt l (x_a r) - m_b r * wt l (x_b r).
Definition all_mass (l : list (@rcomp R)) : R := total (map k_mass l).
Theorem C190_mass : forall r l q, fit_rxn (length l) r -> (forall i, (i < length l)%nat -> 0 < wt l i) ->
  all_mass (fst (reactR r (l, q))) = all_mass l + extent r l * imbalance r l.
Proof.
  intros r l q F W. rewrite (react1_eq r l q F W). cbn [fst]. destruct F as (A & B & P & Q & D & _). set (n := extent r l). clearbody n.
  assert (LE : length (ends r n l) = length l) by (unfold ends, snap, gain, lose; rewrite !at_len; reflexivity).
  assert (SE : all_mass (ends r n l) = all_mass l + n * (m_p r * wt l (x_p r) - m_a r * wt l (x_a r) - m_b r * wt l (x_b r))).
  { unfold all_mass, ends, snap.
    rewrite at_map by (intros [f w t m]; destruct (_ <~ _); reflexivity). rewrite at_map by (intros [f w t m]; destruct (_ <~ _); reflexivity).
    unfold gain. rewrite (at_sum k_mass _ _ _ (m_p r * wt l (x_p r) * n)) by (first [intros [f w t m]; reflexivity|unfold lose; rewrite !at_len; exact P]).
    unfold lose. rewrite (at_sum k_mass _ _ _ (- (m_b r * wt l (x_b r) * n))) by (first [intros [f w t m]; reflexivity|rewrite !at_len; exact B]).
    rewrite (at_sum k_mass _ _ _ (- (m_a r * wt l (x_a r) * n))) by (first [intros [f w t m]; reflexivity|exact A]). ring. }
  unfold imbalance. destruct (x_q r) as [j|].
  - unfold all_mass, gain in *. rewrite (at_sum k_mass _ _ _ (m_q r * wt l j * n)) by (first [intros [f w t m]; reflexivity|rewrite LE; apply Q; reflexivity]).
    rewrite SE. ring.
  - rewrite SE. ring.
Qed.
Definition balanced (l : list (@rcomp R)) (r : @rxn R) : Prop := imbalance r l = 0.
Lemma wt_same l l' : map k_w l = map k_w l' -> forall i, wt l i = wt l' i.
Proof. intros H i. unfold wt, the. rewrite <- !(map_nth k_w). rewrite H. reflexivity. Qed.
Theorem C190_sequence : forall rs l, Forall (fit_rxn (length l)) rs -> (forall i, (i < length l)%nat -> 0 < wt l i) ->
  (forall i, 0 <= tot l i) -> (forall r l', In r rs -> (forall i, 0 <= tot l' i) -> 0 <= eff r l') ->
  let l' := fst (react eff rs l) in
  length l' = length l /\ (forall i, wt l' i = wt l i) /\ (forall i, 0 <= tot l' i) /\
  (Forall (balanced l) rs -> all_mass l' = all_mass l).
Proof.
  intros rs l F W TN E. unfold react. generalize (n0 : R) as q.
  revert l F W TN. induction rs as [|r rs IH]; intros l F W TN q; cbv zeta.
  - cbn [fold_left fst]. repeat split; auto.
  - cbn [fold_left]. pose proof (Forall_inv F) as FR. pose proof (Forall_inv_tail F) as FT.
    destruct (C190_stoichiometry r l q FR W) as (_ & L1 & K1 & _). pose proof (C190_positive r l q FR W TN (E r l (or_introl eq_refl) TN)) as P1.
    pose proof (C190_mass r l q FR W) as M1. destruct (reactR r (l, q)) as [l1 q1]. cbn [fst] in *.
    pose proof (wt_same l1 l K1) as W1.
    assert (F1 : Forall (fit_rxn (length l1)) rs) by (rewrite L1; exact FT).
    assert (W2 : forall i, (i < length l1)%nat -> 0 < wt l1 i) by (intros i I; rewrite W1; apply W; rewrite <- L1; exact I).
    destruct (IH (fun r' l' I => E r' l' (or_intror I)) l1 F1 W2 P1 q1) as (J1 & J2 & J3 & J4).
    split; [congruence|]. split; [intro i; rewrite J2; apply W1|]. split; [exact J3|]. intro BA. rewrite J4.
    + rewrite M1. pose proof (Forall_inv BA) as Z. unfold balanced in Z. rewrite Z. ring.
    + apply Forall_inv_tail in BA. revert BA. apply Forall_impl. intros a Z. unfold balanced, imbalance in *. rewrite !W1.
      destruct (x_q a); rewrite ?W1; exact Z.
Qed.
End REACTIONS.
Print Assumptions C190_stoichiometry.
Print Assumptions C190_cleared.
Print Assumptions C190_positive.
Print Assumptions C190_mass.
Print Assumptions C190_sequence.
(** The efficiencies of the two reactors are such: not negative, and by the reagent's mass where
    that is configured. *)
Theorem C190_efficiency : forall (r : @rxn R) l, (forall i, 0 <= tot l i) -> 0 <= f_def r ->
  0 <= react_eff r l /\
  (forall bias scale t, 0 <= hot_eff bias scale t r l) /\
  (f_b r <= Reps -> react_eff r l = (if Rlt_dec Reps (f_a r) then f_a r else f_def r) /\
                    forall bias scale t, hot_eff bias scale t r l = within 0 (bias + scale * t) 1) /\
  (Reps < f_b r -> react_eff r l = (if Rlt_dec Reps (f_a r) then f_a r else f_def r) * (f_b r * tot l (x_b r)) /\
                    forall bias scale t, hot_eff bias scale t r l = within 0 (bias + scale * t) 1 * (f_b r * tot l (x_b r))).
Proof.
  intros r l TN FD. pose proof Reps_pos as E0. unfold react_eff, hot_eff, by_reagent.
  change (neps <~ f_b r) with (Rltb Reps (f_b r)). change (neps <~ f_a r) with (Rltb Reps (f_a r)).
  replace (if Rltb Reps (f_a r) then f_a r else f_def r) with (if Rlt_dec Reps (f_a r) then f_a r else f_def r)
    by (destruct (Rltb_spec Reps (f_a r)), (Rlt_dec Reps (f_a r)); try lra; reflexivity).
  assert (L : forall y, limit_range n0 y n1 = within 0 y 1) by (intro y; apply limit_within; rnum; lra).
  assert (B : 0 <= (if Rlt_dec Reps (f_a r) then f_a r else f_def r)) by (destruct (Rlt_dec Reps (f_a r)); lra).
  assert (WB : forall y, 0 <= within 0 y 1) by (intro y; unfold within; mm).
  assert (TB : Reps < f_b r -> 0 <= f_b r * k_total (the l (x_b r))) by (intro H; apply Rmult_le_pos; [lra|apply TN]).
  set (e := if Rlt_dec Reps (f_a r) then f_a r else f_def r) in *. clearbody e.
  destruct (Rltb_spec Reps (f_b r)) as [H|H].
  - split; [apply Rmult_le_pos; auto|]. split; [intros; rewrite L; apply Rmult_le_pos; [apply WB|auto]|].
    split; [intro; lra|]. intros _. split; [reflexivity|]. intros. rewrite L. reflexivity.
  - split; [exact B|]. split; [intros; rewrite L; apply WB|]. split; [|intro; lra]. intros _. split; [reflexivity|]. intros. apply L.
Qed.
Print Assumptions C190_efficiency.

(** ** C192: the defined reactions *)
Definition formula (c : compound) : list Z :=
  match c with
  | cCH4 => [1; 4; 0; 0; 0; 0] | cCO => [1; 0; 1; 0; 0; 0] | cCO2 => [1; 0; 2; 0; 0; 0] | cH2 => [0; 2; 0; 0; 0; 0]
  | cH2O => [0; 2; 1; 0; 0; 0] | cH3PO4 => [0; 3; 4; 0; 0; 1] | cLIOH => [0; 1; 1; 1; 0; 0] | cLIOHH2O => [0; 3; 2; 1; 0; 0]
  | cLI2CO3 => [1; 0; 3; 2; 0; 0] | cNH3 => [0; 3; 0; 0; 1; 0] | cNH42HPO4 => [0; 9; 4; 0; 2; 1] | cO2 => [0; 0; 2; 0; 0; 0]
  end%Z.
Definition scaled_by (k : Z) (l : list Z) : list Z := map (Z.mul k) l.
Definition added (a b : list Z) : list Z := map (fun p => (fst p + snd p)%Z) (combine a b).
Definition left_of (r : reaction) : list Z :=
  let '(na, a, (nb, b), _, _) := defined r in added (scaled_by na (formula a)) (scaled_by nb (formula b)).
Definition right_of (r : reaction) : list Z :=
  let '(_, _, _, (np, p), q) := defined r in
  added (scaled_by np (formula p)) (match q with Some (nq, c) => scaled_by nq (formula c) | None => [0; 0; 0; 0; 0; 0]%Z end).
(** Every defined reaction balances in its elements. *)
Theorem C192_elements : forall r, left_of r = right_of r.
Proof. intros []; reflexivity. Qed.
Print Assumptions C192_elements.
Definition weigh (p : Z * compound) : R := IZR (fst p) * weight (snd p).
Definition excess (r : reaction) : R :=
  let '(na, a, b, p, q) := defined r in
  weigh p + match q with Some c => weigh c | None => 0 end - weigh (na, a) - weigh b.
Ltac weights := unfold excess, weigh, weight; cbn [defined fst snd]; rnum; unfold Rdec; cbn [Z.leb Z.compare];
  repeat match goal with |- context [(10 ^ ?k)%Z] => let v := eval vm_compute in (10 ^ k)%Z in change (10 ^ k)%Z with v end; cbn [Z.opp]; repeat match goal with |- context [(10 ^ ?k)%Z] => let v := eval vm_compute in (10 ^ k)%Z in change (10 ^ k)%Z with v end.
(** And in their masses, or within a ten-thousandth of a kilogram per kmol. *)
Theorem C192_excess : forall r, excess r =
  match r with H2_REMOVAL => 4 / 100000 | LI2CO3_FORMATION => 2 / 100000 | SABATIER_RXN => 8 / 100000 | _ => 0 end.
Proof. intros []; weights; lra. Qed.
Print Assumptions C192_excess.
Theorem C192_mass_refuted : exists r, 0 < excess r.
Proof. exists SABATIER_RXN. rewrite C192_excess. lra. Qed.
Print Assumptions C192_mass_refuted.

(** ** C191: the reactor on its nodes *)
Lemma sum_byR (f : @rcomp R -> R) l : sum_by f l = total (map f l).
Proof.
  unfold sum_by. assert (G : forall a, fold_left (fun a c => a +~ f c) l a = a + total (map f l)).
  { induction l as [|x l IH]; intro a; cbn [fold_left map total]; [unfold total; cbn; lra|]. rewrite IH.
    unfold total. cbn [fold_right]. rnum. ring. }
  rewrite G. rnum. lra.
Qed.
(** The flow of the internal fluid passes, and the node it flows to gains what was made and loses
    what was used. *)
Definition cut (y : R) : R := if Rlt_dec (100 * Reps) (Rabs y) then y else 0.
Theorem C191_flows : forall flow p wp u wu old, 0 <= p -> u <= 0 ->
  let s := reactor_source flow p wp u wu old in let g := reactor_gain flow p u in
  (100 * Reps < flow -> s = (0, cut p / wp + cut u / wu) /\ g = (- flow, flow + (cut p + cut u))) /\
  (flow < - (100 * Reps) -> s = (cut p / wp + cut u / wu, 0) /\ g = (- flow + (cut p + cut u), flow)) /\
  (Rabs flow <= 100 * Reps -> s = old /\ g = (0, 0)).
Proof.
  intros flow p wp u wu old P U. pose proof Reps_pos as E0. unfold reactor_source, reactor_gain. cbv zeta. rewrite !sorb_limitR.
  change (100 * Reps <~ p) with (Rltb (100 * Reps) p). change (u <~ nopp (100 * Reps)) with (Rltb u (- (100 * Reps))).
  change (100 * Reps <~ flow) with (Rltb (100 * Reps) flow). change (flow <~ nopp (100 * Reps)) with (Rltb flow (- (100 * Reps))).
  assert (CP : cut p = if Rltb (100 * Reps) p then p else 0).
  { unfold cut. rewrite Rabs_right by lra. destruct (Rlt_dec (100 * Reps) p), (Rltb_spec (100 * Reps) p); try lra; reflexivity. }
  assert (CU : cut u = if Rltb u (- (100 * Reps)) then u else 0).
  { unfold cut. rewrite Rabs_left1 by lra. destruct (Rlt_dec (100 * Reps) (- u)), (Rltb_spec u (- (100 * Reps))); try lra; reflexivity. }
  rewrite CP, CU. clear CP CU. assert (Z : forall w, 0 / w = 0) by (intro; unfold Rdiv; ring).
  split; [|split]; intro H.
  - rewrite (Rltb_true _ _ H). split; f_equal; destruct (Rltb (100 * Reps) p), (Rltb u (- (100 * Reps))); rnum; rewrite ?Z; lra.
  - destruct (Rltb_spec (100 * Reps) flow); [lra|]. rewrite (Rltb_true _ _ H).
    split; f_equal; destruct (Rltb (100 * Reps) p), (Rltb u (- (100 * Reps))); rnum; rewrite ?Z; lra.
  - unfold Rabs in H. destruct (Rcase_abs flow), (Rltb_spec (100 * Reps) flow); try lra; destruct (Rltb_spec flow (- (100 * Reps))); try lra; split; reflexivity.
Qed.
Print Assumptions C191_flows.
(** What a step makes and uses are the masses the reactions left in the air, but for epsilon each. *)
Theorem C191_rates : forall eff rs x flow dt l, Reps < dt -> feps < Rabs flow ->
  let s := react eff rs (map (take_in x flow dt) l) in
  reactor_update eff rs x flow dt l = Some (fst s, total (map made (fst s)) / dt, total (map used (fst s)) / dt, snd s) /\
  (forall c, made c = match k_fluid c with Some _ => if Rlt_dec Reps (k_mass c) then k_mass c else 0 | None => 0 end) /\
  (forall c, used c = match k_fluid c with Some _ => if Rlt_dec (k_mass c) (- Reps) then k_mass c else 0 | None => 0 end) /\
  0 <= total (map made (fst s)) / dt /\ total (map used (fst s)) / dt <= 0.
Proof.
  intros eff rs x flow dt l D F s. pose proof Reps_pos as E0. unfold reactor_update.
  change (feps <~ nabs flow) with (Rltb feps (Rabs flow)). change (neps <~ dt) with (Rltb Reps dt).
  rewrite (Rltb_true _ _ D), (Rltb_true _ _ F). cbn [andb]. fold s. rewrite (surjective_pairing s). cbn [fst snd].
  unfold product_rate, reactant_rate. rewrite !sum_byR.
  assert (M : forall c : @rcomp R, made c = match k_fluid c with Some _ => if Rlt_dec Reps (k_mass c) then k_mass c else 0 | None => 0 end).
  { intro c. unfold made. destruct (k_fluid c); [|reflexivity]. change (neps <~ k_mass c) with (Rltb Reps (k_mass c)).
    destruct (Rltb_spec Reps (k_mass c)), (Rlt_dec Reps (k_mass c)); try lra; reflexivity. }
  assert (V : forall c : @rcomp R, used c = match k_fluid c with Some _ => if Rlt_dec (k_mass c) (- Reps) then k_mass c else 0 | None => 0 end).
  { intro c. unfold used. destruct (k_fluid c); [|reflexivity]. change (k_mass c <~ nopp neps) with (Rltb (k_mass c) (- Reps)).
    destruct (Rltb_spec (k_mass c) (- Reps)), (Rlt_dec (k_mass c) (- Reps)); try lra; reflexivity. }
  split; [reflexivity|]. split; [exact M|]. split; [exact V|].
  assert (I : 0 < / dt) by (apply Rinv_0_lt_compat; lra). generalize (fst s). intro k.
  assert (0 <= total (map made k) /\ total (map used k) <= 0).
  { induction k as [|c k IH]; [cbn; lra|]. cbn [map]. unfold total in *. cbn [fold_right]. rewrite M, V.
    destruct (k_fluid c), (Rlt_dec Reps (k_mass c)), (Rlt_dec (k_mass c) (- Reps)); lra. }
  unfold Rdiv. split; nra.
Qed.
Print Assumptions C191_rates.
Theorem C191_intake : forall (x : nat -> R) flow dt c,
  k_mass (take_in x flow dt c) = 0 /\ k_w (take_in x flow dt c) = k_w c /\ k_fluid (take_in x flow dt c) = k_fluid c /\
  (forall i, k_fluid c = Some i -> k_total (take_in x flow dt c) = x i * Rabs flow * dt) /\
  (k_fluid c = None -> k_total (take_in x flow dt c) = k_total c).
Proof.
  intros x flow dt c. unfold take_in. cbn [k_mass k_w k_fluid k_total]. repeat split; auto.
  - intros i ->. reflexivity.
  - intros ->. reflexivity.
Qed.
Print Assumptions C191_intake.
(** The heat of the reaction is the rise of enthalpy of a forward flow; in a backward flow the same
    heat cools the fluid. *)
Theorem C191_heat : forall flow h q dt, flow <> 0 -> dt <> 0 ->
  (rxn_enthalpy flow h q dt - h) * (flow * dt) = q.
Proof. intros flow h q dt F D. unfold rxn_enthalpy. rnum. field. split; assumption. Qed.
Print Assumptions C191_heat.
Theorem C191_reverse_refuted : exists flow h q dt,
  feps < Rabs flow /\ 0 < dt /\ 0 < q /\ rxn_enthalpy flow h q dt < h.
Proof.
  pose proof core_feps as F. exists (-1), 100, 10, 1. split; [rewrite Rabs_left; lra|]. split; [lra|]. split; [lra|].
  unfold rxn_enthalpy. rnum. lra.
Qed.
Print Assumptions C191_reverse_refuted.
(** When the flow stops the source vector is not cleared: the network goes on making the moles of
    the last step. *)
Theorem C191_source_refuted : exists flow p wp u wu, 100 * Reps < flow /\
  let s := reactor_source flow p wp u wu (0, 0) in
  snd s <> 0 /\ reactor_source 0 0 wp 0 wu s = s /\ reactor_gain 0 0 0 = (0, 0).
Proof.
  pose proof Reps_small as E1. pose proof Reps_pos as E0. exists 1, 0, 18, (-1), 32. split; [lra|]. cbv zeta.
  destruct (C191_flows 1 0 18 (-1) 32 (0, 0)) as (A & _ & _); [lra|lra|]. destruct A as [-> _]; [lra|]. cbn [snd].
  split.
  - unfold cut. rewrite Rabs_R0, (Rabs_left (-1)) by lra. destruct (Rlt_dec (100 * Reps) 0); [lra|]. destruct (Rlt_dec (100 * Reps) (- -1)); lra.
  - destruct (C191_flows 0 0 18 0 32 (0, cut 0 / 18 + cut (-1) / 32)) as (_ & _ & B); [lra|lra|]. apply B. rewrite Rabs_R0. lra.
Qed.
Print Assumptions C191_source_refuted.

(** A carbon monoxide filter: it fits, it is balanced, and it reacts. *)
Definition filter_air : list (@rcomp R) :=
  [mkrcomp (Some 0%nat) (280101 / 10000) 28 0; mkrcomp (Some 1%nat) (319988 / 10000) 320 0; mkrcomp (Some 2%nat) (440095 / 10000) 0 0].
Definition co_removal : @rxn R := mkrxn 0 1 2 None 2 1 2 0 (8 / 10) 0 0 0.
Example C190_fits : fit_rxn (length filter_air) co_removal /\ balanced filter_air co_removal /\
  0 < extent react_eff co_removal filter_air.
Proof.
  split; [|split].
  - unfold fit_rxn, co_removal, filter_air. cbn. repeat split; try lia; try lra; discriminate.
  - unfold balanced, imbalance, wt, the, co_removal, filter_air. cbn. lra.
  - pose proof Reps_pos as E0. unfold extent, tot, wt, the, react_eff, by_reagent, co_removal, filter_air. cbn [nth x_a x_b k_total k_w m_a m_b f_a f_b f_def].
    change (neps <~ 0) with (Rltb Reps 0). destruct (Rltb_spec Reps 0); [lra|]. mm.
Qed.
