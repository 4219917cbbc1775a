(** C167-C169: condensing heat exchangers, hatches, quick disconnects and phase change. *)
From Coq Require Import Floats.
From Coq Require Import Reals Lra Lia List Arith Bool ZArith.
From Verif Require Import Num Ord MathUtil Props_Math Spec_Valve Props_Valve Props_Thermal FluidFlow Props_FluidFlow FluidHx Props_FluidHx.
Import ListNotations.
Local Open Scope R_scope.

(** ** C167 *)
Lemma sum_ofE {A} (k : A -> R) (l : list A) : fold_left (fun s p => s +~ k p) l (n0 : R) = total (map k l).
Proof.
  assert (G : forall a, fold_left (fun s p => s +~ k p) l a = a + total (map k l)).
  { induction l as [|x l IH]; intro a; [change (a = a + 0); lra|]. cbn [fold_left map]. rewrite IH. change (a + k x + total (map k l) = a + (k x + total (map k l))). lra. }
  rewrite G. change (n0 : R) with 0. lra.
Qed.
(** A flow past a wall: what [lim], [ratio] and the exponential make of it. *)
Lemma towards htc m c tin wall : 0 < htc -> 0 < m * c ->
  let lim := Rmin htc (100 * m * c) in let ratio := lim / (m * c) in
  let out := wall + exp (- ratio) * (tin - wall) in
  lim * (tin - out) / ratio = m * c * (tin - out) /\ 0 < ratio <= 100 /\ 0 < exp (- ratio) < 1 /\
  (wall <= tin -> wall <= out <= tin) /\ (tin <= wall -> tin <= out <= wall) /\ (wall < tin -> out < tin) /\ (tin < wall -> tin < out).
Proof.
  intros H M. cbv zeta. set (lim := Rmin htc (100 * m * c)).
  assert (L : 0 < lim <= 100 * (m * c)). { unfold lim, Rmin. destruct (Rle_dec _ _); lra. } clearbody lim. set (mc := m * c) in *. clearbody mc.
  set (r := lim / mc). assert (RE : r * mc = lim) by (unfold r; field; lra). assert (RP : 0 < r) by (unfold r; apply Rdiv_lt_0_compat; lra).
  assert (RH : r <= 100). { apply (Rmult_le_reg_r mc); [exact M|]. lra. } clearbody r.
  assert (E1 : 0 < exp (- r)) by apply exp_pos. assert (E2 : exp (- r) < 1). { rewrite <- exp_0. apply exp_increasing. lra. }
  set (e := exp (- r)) in *. clearbody e. split; [rewrite <- RE; field; lra|]. split; [lra|]. split; [lra|].
  assert (A : 0 <= tin - wall -> 0 <= e * (tin - wall) <= tin - wall). { intro Q. split; [apply Rmult_le_pos; lra|]. pose proof (Rmult_le_pos (1 - e) (tin - wall) ltac:(lra) Q). lra. }
  assert (B : 0 <= wall - tin -> 0 <= e * (wall - tin) <= wall - tin). { intro Q. split; [apply Rmult_le_pos; lra|]. pose proof (Rmult_le_pos (1 - e) (wall - tin) ltac:(lra) Q). lra. }
  split; [intro Q; specialize (A ltac:(lra)); lra|]. split; [intro Q; specialize (B ltac:(lra)); lra|].
  split; intro Q; [pose proof (Rmult_lt_0_compat (1 - e) (tin - wall) ltac:(lra) ltac:(lra))|pose proof (Rmult_lt_0_compat (1 - e) (wall - tin) ltac:(lra) ltac:(lra))]; lra.
Qed.

Section CONDENSING.
Variables (F : Type) (mF ppF cpF tF xF : F -> R) (hF : F -> R -> R) (setT : F -> R -> F) (cond : F -> R -> F).
Variables (satT satP hvap : R -> R).
Notation segC := (cond_seg exp F mF ppF cpF tF xF hF setT cond satT satP hvap).
Notation segsC := (cond_segs exp F mF ppF cpF tF xF hF setT cond satT satP hvap).
Notation hxC := (cond_hx exp F mF ppF cpF tF xF hF setT cond satT satP hvap).
(** The fluid's mean specific heat down to its dew point, and the one at it. *)
Definition cpDew (f : F) : R := hF f (satT (ppF f)) / tF f.
Definition cpMean (f : F) : R := (cpF f + cpDew f) / 2.
(** The temperature it would leave at, were it dry. *)
Definition dry_out (htc wall : R) (f : F) : R := wall + exp (- (Rmin htc (100 * mF f * cpMean f) / (mF f * cpMean f))) * (tF f - wall).
Definition dry_heat (htc wall : R) (f : F) : R := mF f * cpMean f * (tF f - dry_out htc wall f).
Definition dew_heat (f : F) : R := Rmax 0 ((tF f - satT (ppF f)) * cpMean f * mF f).
Definition condenses (htc wall : R) (f : F) : Prop := dew_heat f < dry_heat htc wall f /\ Reps < ppF f.

Lemma half2 : (half : R) = 1 / 2. Proof. unfold half. rnum. unfold Rdec. cbn. lra. Qed.
Lemma d100 : (ndec 100 0 : R) = 100. Proof. rnum. unfold Rdec. cbn. lra. Qed.
(** A segment as the definitions above. *)
Lemma seg_split htc wall f : 0 < htc -> 0 < mF f -> 0 < cpMean f ->
  (condenses htc wall f -> exists i ql, let tdew := satT (ppF f) in let tseg := within 273.15 wall 572.999 in
     i = four exp satP hvap htc (mF f) (ppF f) (cpDew f) (xF f) tdew tseg (Rmin htc (100 * mF f * cpMean f)) (Rmin htc (100 * mF f * cpMean f) / (mF f * cpMean f)) /\
     let qc := i_lim i * (tdew - i_t i) / i_ratio i in
     ql = qc / (1 + cpDew f / i_cpl i) /\
     let f1 := setT (cond f (ql / i_dh i)) (dry_out htc wall f) in
     segC htc wall f = (setT f1 (satT (ppF f1)), mkpart (dew_heat f + qc - ql) ql (ql / i_dh i))) /\
  (~ condenses htc wall f -> segC htc wall f = (setT f (dry_out htc wall f), mkpart (dry_heat htc wall f) 0 0)).
Proof.
  intros H M C. unfold cond_seg.
  assert (EC : half *~ (cpF f +~ hF f (satT (ppF f)) /~ tF f) = cpMean f) by (rewrite half2; unfold cpMean, cpDew; rnum; lra).
  rewrite EC. change (hF f (satT (ppF f)) /~ tF f) with (cpDew f). rewrite !nmaxR, !nminR, d100.
  change (100 *~ mF f *~ cpMean f) with (100 * mF f * cpMean f). change (n0 : R) with 0.
  change ((tF f -~ satT (ppF f)) *~ cpMean f *~ mF f) with ((tF f - satT (ppF f)) * cpMean f * mF f). fold (dew_heat f).
  set (lim := Rmin htc (100 * mF f * cpMean f)).
  assert (OUT : wall +~ exp (nopp (lim /~ (mF f *~ cpMean f))) *~ (tF f -~ wall) = dry_out htc wall f) by reflexivity. rewrite OUT.
  assert (QS : lim *~ (tF f -~ dry_out htc wall f) /~ (lim /~ (mF f *~ cpMean f)) = dry_heat htc wall f).
  { destruct (towards htc (mF f) (cpMean f) (tF f) wall H (Rmult_lt_0_compat _ _ M C)) as (Q & _). exact Q. }
  rewrite QS. change (neps : R) with Reps. change (dew_heat f <~ dry_heat htc wall f) with (Rltb (dew_heat f) (dry_heat htc wall f)). change (Reps <~ ppF f) with (Rltb Reps (ppF f)).
  unfold condenses. destruct (Rltb_spec (dew_heat f) (dry_heat htc wall f)) as [A|A], (Rltb_spec Reps (ppF f)) as [B|B]; cbn [andb]; (split; [intros [? ?]; try contradiction|intro Z; try (exfalso; apply Z; split; assumption); reflexivity]).
  assert (TL : (t_lo : R) = 273.15) by (unfold t_lo; rnum; unfold Rdec; cbn; lra). assert (TH : (t_hi : R) = 572.999) by (unfold t_hi; rnum; unfold Rdec; cbn; lra).
  rewrite TL, TH, limit_within by lra. eexists. eexists. cbv zeta. split; [reflexivity|]. split; [reflexivity|]. reflexivity.
Qed.

(** Dry, a segment takes the flow's sensible heat towards the wall. *)
Theorem C167_dry : forall htc wall f, 0 < htc -> 0 < mF f -> 0 < cpMean f -> ~ condenses htc wall f ->
  let r := segC htc wall f in let out := dry_out htc wall f in
  fst r = setT f out /\ r_sens (snd r) = mF f * cpMean f * (tF f - out) /\ r_lat (snd r) = 0 /\ r_rate (snd r) = 0 /\
  (wall <= tF f -> wall <= out <= tF f) /\ (tF f <= wall -> tF f <= out <= wall).
Proof.
  intros htc wall f H M C D. cbv zeta. destruct (seg_split htc wall f H M C) as [_ E]. rewrite (E D). cbn [fst snd r_sens r_lat r_rate].
  destruct (towards htc (mF f) (cpMean f) (tF f) wall H (Rmult_lt_0_compat _ _ M C)) as (_ & _ & _ & Q1 & Q2 & _). repeat (split; [reflexivity|]). split; assumption.
Qed.
(** Condensation only starts where the dry flow would get below its dew point. *)
Theorem C167_dew : forall htc wall f, 0 < htc -> 0 < mF f -> 0 < cpMean f -> condenses htc wall f ->
  dry_out htc wall f < satT (ppF f) /\ wall < tF f /\ wall < satT (ppF f).
Proof.
  intros htc wall f H M C [D _]. destruct (towards htc (mF f) (cpMean f) (tF f) wall H (Rmult_lt_0_compat _ _ M C)) as (_ & _ & _ & Q1 & Q2 & _).
  change (wall <= tF f -> wall <= dry_out htc wall f <= tF f) in Q1. change (tF f <= wall -> tF f <= dry_out htc wall f <= wall) in Q2. unfold dew_heat, dry_heat in D. set (o := dry_out htc wall f) in *. clearbody o.
  set (k := mF f * cpMean f) in *. assert (K : 0 < k) by (unfold k; apply Rmult_lt_0_compat; assumption).
  replace ((tF f - satT (ppF f)) * cpMean f * mF f) with (k * (tF f - satT (ppF f))) in D by (unfold k; ring). clearbody k.
  assert (D1 : 0 < k * (tF f - o)) by (pose proof (Rmax_l 0 (k * (tF f - satT (ppF f)))); lra).
  assert (D2 : k * (tF f - satT (ppF f)) < k * (tF f - o)) by (pose proof (Rmax_r 0 (k * (tF f - satT (ppF f)))); lra).
  apply Rmult_lt_reg_l in D2; [|exact K]. assert (D3 : 0 < tF f - o). { apply (Rmult_lt_reg_l k); [exact K|]. lra. }
  assert (W : wall <= tF f). { destruct (Rle_dec wall (tF f)); [assumption|]. specialize (Q2 ltac:(lra)). lra. } specialize (Q1 W). lra.
Qed.
(** Wet, its latent heat is the heat of vaporisation of what condenses, and the dew heat and the heat of
    condensation divide into sensible and latent.  What condenses has the sign of dew point less the
    limited wall temperature. *)
(** Between dew point and wall the saturation pressure rises, and evaporating takes heat. *)
Definition watery (a b : R) : Prop := forall t, Rmin a b <= t <= Rmax a b -> satP (t - 1 / 1000) < satP t /\ 0 < hvap t.
Definition inner (a b t : R) : Prop := Rmin a b <= t <= Rmax a b.
Lemma iter_one htc m pp cp x tdew tseg (j : iter R) : 0 < htc -> 0 < m -> 0 < pp -> 0 < cp -> 0 < x -> watery tdew tseg -> inner tdew tseg (i_t j) ->
  let i := cond_iter exp satP hvap htc m pp cp x tdew tseg j in
  exists tavg, inner tdew tseg tavg /\ i_dh i = 1000 * hvap tavg /\ 0 < i_cpl i /\ 0 < i_dh i /\
    i_lim i * (tdew - i_t i) / i_ratio i = m * (i_cpl i + cp) * (tdew - i_t i) /\ inner tdew tseg (i_t i) /\
    (tseg <= tdew -> tseg <= i_t i <= tdew) /\ (tdew <= tseg -> tdew <= i_t i <= tseg) /\ (tseg < tdew -> i_t i < tdew) /\ (tdew < tseg -> tdew < i_t i).
Proof.
  intros H M P CP X W J. cbv zeta. unfold cond_iter. cbn [i_dh i_cpl i_lim i_ratio i_t].
  assert (KI : (kilo : R) = 1000) by (unfold kilo; rnum; unfold Rdec; cbn; lra). assert (KD : (ndec 1 (-3) : R) = 1 / 1000) by (rnum; unfold Rdec; cbn; lra).
  rewrite KI, KD, d100, nminR, half2. set (tavg := 1 / 2 *~ (tdew +~ i_t j)). assert (TE : tavg = (tdew + i_t j) / 2) by (unfold tavg; rnum; lra). clearbody tavg.
  assert (TI : inner tdew tseg tavg). { unfold inner in *. unfold Rmin, Rmax in *. destruct (Rle_dec tdew tseg); lra. }
  destruct (W tavg TI) as [SU HP].
  set (c := x *~ _ /~ pp *~ _).
  assert (C0 : 0 < c). { unfold c. apply Rmult_lt_0_compat; [|change (0 < hvap tavg * 1000); lra].
    apply Rdiv_lt_0_compat; [|exact P]. apply Rmult_lt_0_compat; [exact X|]. change (0 < (satP tavg - satP (tavg - 1 / 1000)) / (1 / 1000)). apply Rdiv_lt_0_compat; lra. }
  clearbody c. change (m *~ (c +~ cp)) with (m * (c + cp)). change (100 *~ m *~ (c +~ cp)) with (100 * m * (c + cp)).
  assert (MC : 0 < m * (c + cp)) by (apply Rmult_lt_0_compat; lra).
  destruct (towards htc m (c + cp) tdew tseg H MC) as (T1 & _ & _ & T2 & T3 & T4 & T5). cbv zeta in *.
  exists tavg. split; [exact TI|]. split; [rnum; lra|]. split; [exact C0|]. split; [change (0 < hvap tavg * 1000); lra|]. split; [exact T1|].
  set (lim := Rmin htc (100 * m * (c + cp))) in *. change (tseg +~ exp (nopp (lim /~ (m * (c + cp)))) *~ (tdew -~ tseg)) with (tseg + exp (- (lim / (m * (c + cp)))) * (tdew - tseg)).
  set (o := tseg + exp (- (lim / (m * (c + cp)))) * (tdew - tseg)) in *. clearbody o.
  split; [|repeat (split; [assumption|]); assumption]. unfold inner, Rmin, Rmax. destruct (Rle_dec tdew tseg) as [Q|Q]; [specialize (T3 Q)|specialize (T2 ltac:(lra))]; lra.
Qed.
Definition iter_facts htc m cp tdew tseg (i : iter R) : Prop :=
  exists tavg, inner tdew tseg tavg /\ i_dh i = 1000 * hvap tavg /\ 0 < i_cpl i /\ 0 < i_dh i /\
    i_lim i * (tdew - i_t i) / i_ratio i = m * (i_cpl i + cp) * (tdew - i_t i) /\ inner tdew tseg (i_t i) /\
    (tseg <= tdew -> tseg <= i_t i <= tdew) /\ (tdew <= tseg -> tdew <= i_t i <= tseg) /\ (tseg < tdew -> i_t i < tdew) /\ (tdew < tseg -> tdew < i_t i) /\ 0 < htc.
Lemma four_facts htc m pp cp x tdew tseg lim ratio i : i = four exp satP hvap htc m pp cp x tdew tseg lim ratio ->
  0 < htc -> 0 < m -> 0 < pp -> 0 < cp -> 0 < x -> watery tdew tseg -> iter_facts htc m cp tdew tseg i.
Proof.
  intros -> H M P CP X W. unfold four.
  assert (ST : forall j, inner tdew tseg (i_t j) -> iter_facts htc m cp tdew tseg (cond_iter exp satP hvap htc m pp cp x tdew tseg j)).
  { intros j J. destruct (iter_one htc m pp cp x tdew tseg j H M P CP X W J) as (tavg & A). exists tavg. tauto. }
  revert ST. generalize (cond_iter exp satP hvap htc m pp cp x tdew tseg). intros k ST.
  assert (S0 : inner tdew tseg (i_t (mkiter n0 n0 lim ratio tseg))) by (cbn [i_t]; unfold inner; split; [apply Rmin_r|apply Rmax_r]).
  assert (G : forall j, inner tdew tseg (i_t j) -> inner tdew tseg (i_t (k j))). { intros j J. destruct (ST j J) as (? & _ & _ & _ & _ & _ & Q & _). exact Q. }
  apply ST, G, G, G, S0.
Qed.
Theorem C167_wet : forall htc wall f, let tdew := satT (ppF f) in let tseg := within 273.15 wall 572.999 in
  watery tdew tseg -> 0 < htc -> 0 < mF f -> 0 < cpF f -> 0 < cpDew f -> 0 < xF f -> condenses htc wall f ->
  exists tavg tc c, let r := snd (segC htc wall f) in let dh := 1000 * hvap tavg in
  0 < c /\ r_sens r + r_lat r = dew_heat f + mF f * (c + cpDew f) * (tdew - tc) /\
  r_lat r = mF f * c * (tdew - tc) /\ r_lat r = r_rate r * dh /\ 0 < dh /\ inner tdew tseg tavg /\
  (tseg <= tdew -> tseg <= tc <= tdew) /\ (tdew <= tseg -> tdew <= tc <= tseg) /\
  (tseg < tdew -> 0 < r_rate r) /\ (tdew < tseg -> r_rate r < 0) /\
  (exists t, fst (segC htc wall f) = setT (setT (cond f (r_rate r)) (dry_out htc wall f)) t).
Proof.
  intros htc wall f tdew tseg WA H M CI CD X W. assert (C : 0 < cpMean f) by (unfold cpMean; lra). destruct (seg_split htc wall f H M C) as [E _].
  destruct (E W) as (i & ql & EI & EQ & ES). clear E. rewrite ES. cbv zeta. cbn [fst snd r_sens r_lat r_rate]. destruct W as [_ PP]. pose proof Reps_pos as E0.
  apply four_facts in EI; try assumption; [|lra]. destruct EI as (tavg & TI & ID & C0 & D0 & Q & _ & T2 & T3 & T4 & T5 & _). clear ES. fold tdew tseg in EQ, Q, T2, T3, T4, T5, TI. fold tdew. clearbody tdew tseg.
  rewrite Q in *. exists tavg, (i_t i), (i_cpl i). set (tc := i_t i) in *. set (c := i_cpl i) in *. clearbody tc c. split; [exact C0|]. split; [lra|].
  assert (LQ : ql = mF f * c * (tdew - tc)) by (rewrite EQ; field; lra). rewrite <- ID. set (dh := i_dh i) in *. clearbody dh.
  split; [exact LQ|]. split; [field; lra|]. split; [lra|]. split; [exact TI|]. split; [exact T2|]. split; [exact T3|].
  assert (MP : 0 < mF f * c) by (apply Rmult_lt_0_compat; assumption).
  split; [intro A; specialize (T4 A); apply Rdiv_lt_0_compat; [rewrite LQ; apply Rmult_lt_0_compat; lra|lra]|].
  split; [intro A; specialize (T5 A)|eexists; reflexivity].
  assert (Z : 0 < (- ql) / dh). { apply Rdiv_lt_0_compat; [|lra]. pose proof (Rmult_lt_0_compat (mF f * c) (tc - tdew) MP ltac:(lra)). lra. }
  unfold Rdiv in *. lra.
Qed.
(** The books: latent and sensible heat make the total, which is the sum over the segments, and what leaves is
    what came less the condensate. *)
Hypothesis cond_mass : forall f r, mF (cond f r) = mF f - r.
Hypothesis setT_mass : forall f t, mF (setT f t) = mF f.
Lemma seg_mass htc wall f : mF (fst (segC htc wall f)) = mF f - r_rate (snd (segC htc wall f)).
Proof. unfold cond_seg. destruct (_ && _); cbn [fst snd r_rate]; rewrite ?setT_mass, ?cond_mass; [reflexivity|]. change (n0:R) with 0. lra. Qed.
Theorem C167_books : forall flow htc (walls : list R) f,
  let r := hxC flow htc walls f in let s := snd r in
  h_tot s = h_sens s + h_lat s /\ h_tot s = total (h_segs s) /\ length (h_segs s) = length walls /\ mF (fst r) = mF f - h_rate s /\
  (flow <= Reps -> fst r = f /\ h_sens s = 0 /\ h_lat s = 0 /\ h_rate s = 0 /\ Forall (fun q => q = 0) (h_segs s)).
Proof.
  intros flow htc walls f. cbv zeta. unfold cond_hx. change (neps <~ flow) with (Rltb Reps flow). destruct (Rltb_spec Reps flow) as [A|A].
  - destruct (segsC htc walls f) as [f' ps] eqn:E. cbn [fst snd h_tot h_sens h_lat h_segs h_rate]. unfold sum_of. rewrite !sum_ofE, map_length. split; [reflexivity|].
    split. { clear E. induction ps as [|p ps IH]; [change (0 + 0 = 0); lra|]. cbn [map]. change (r_sens p + total (map r_sens ps) + (r_lat p + total (map r_lat ps)) = 0 + r_lat p + r_sens p + total (map (fun p => n0 +~ r_lat p +~ r_sens p) ps)).
      rewrite <- IH. change (total (map r_sens ps) +~ total (map r_lat ps)) with (total (map r_sens ps) + total (map r_lat ps)). lra. }
    assert (G : forall (walls : list R) f f' ps, segsC htc walls f = (f', ps) -> length ps = length walls /\ mF f' = mF f - total (map r_rate ps)).
    { clear f f' ps E A walls. induction walls as [|w walls IH]; intros f f' ps E; cbn [cond_segs] in E; [injection E as <- <-; split; [reflexivity|change (mF f = mF f - 0); lra]|].
      pose proof (seg_mass htc w f) as SM. destruct (segC htc w f) as [f1 p]. cbn [fst snd] in SM. destruct (segsC htc walls f1) as [f2 qs] eqn:E2. injection E as <- <-. destruct (IH _ _ _ E2) as [L Q].
      split; [cbn; congruence|]. rewrite Q, SM. change (total (map r_rate (p :: qs))) with (r_rate p + total (map r_rate qs)). lra. }
    destruct (G walls f f' ps E) as [L Q]. split; [exact L|]. split; [exact Q|]. intro; lra.
  - cbn [fst snd h_tot h_sens h_lat h_segs h_rate]. change (n0 : R) with 0. split; [reflexivity|]. rewrite map_length.
    split. { change (0 + 0 = total (map (fun _ : R => 0) walls)). clear. induction walls as [|w l IH]; [change (0 + 0 = 0); lra|]. change (0 + 0 = 0 + total (map (fun _ : R => 0) l)). lra. }
    split; [reflexivity|]. split; [lra|]. intros _. repeat (split; [reflexivity|]). apply Forall_forall. intros x I. apply in_map_iff in I. destruct I as (y & <- & _). reflexivity.
Qed.
(** The nodes: forward the exit gets what leaves, backward all is passed on. *)
Theorem C167_transport : forall flow f,
  let t := chx_transport F mF flow f in
  (100 * Reps < flow -> t = ((flow, 0), (0, mF f))) /\
  (flow < - (100 * Reps) -> t = ((0, - flow), (- flow, 0))) /\
  (Rabs flow <= 100 * Reps -> t = ((0, 0), (0, 0))).
Proof.
  intros flow f. cbv zeta. unfold chx_transport. rewrite hundred_eps. pose proof Reps_pos. change (100 * Reps <~ flow) with (Rltb (100 * Reps) flow). change (flow <~ nopp (100 * Reps)) with (Rltb flow (- (100 * Reps))).
  split; [|split]; intro A.
  - rewrite (Rltb_true (100 * Reps) flow) by exact A. reflexivity.
  - rewrite (Rltb_false (100 * Reps) flow) by lra. rewrite (Rltb_true flow) by exact A. reflexivity.
  - assert (- (100 * Reps) <= flow <= 100 * Reps) by (unfold Rabs in A; destruct (Rcase_abs flow); lra). rewrite (Rltb_false (100 * Reps) flow) by lra. rewrite (Rltb_false flow) by lra. reflexivity.
Qed.
End CONDENSING.
(** The segments' coefficient is the curve's share, and degraded by its factor. *)
Theorem C167_htc : forall (y : dyn R) n malf v flow, (0 < n)%nat -> 0 <= y_lim y ->
  INR n * chx_htc powR y n malf v flow = within 0 (curve y flow) (y_lim y) * (if malf then Rmax 0 v else 1) /\ 0 <= chx_htc powR y n malf v flow.
Proof.
  intros y n malf v flow N L. assert (PN : 0 < INR n) by (apply lt_0_INR; exact N). unfold chx_htc. rewrite dec_nat, rawE, limit_within by exact L. change (n0 : R) with 0.
  assert (W : 0 <= within 0 (curve y flow) (y_lim y)) by (unfold within; apply Rmax_l). set (w := within 0 (curve y flow) (y_lim y)) in *. clearbody w.
  assert (Q : 0 <= w / INR n) by (apply Rmult_le_pos; [exact W|apply Rlt_le, Rinv_0_lt_compat; exact PN]).
  destruct malf; rewrite ?nmaxR; rnum; (split; [field; lra|]); [apply Rmult_le_pos; [exact Q|apply Rmax_l]|exact Q].
Qed.
(** Condensation can be negative, evaporating water that is not there: below 273.15 K the wall counts as warmer than it is. *)
Theorem C167_negative_refuted : exists (satP hvap satT : R -> R) htc wall tin,
  (forall a b, a < b -> satP a < satP b) /\ (forall t, 0 < hvap t) /\ 0 < htc /\ wall < satT 1 /\ satT 1 <= tin /\
  condenses R (fun _ => 1) (fun _ => 1) (fun _ => 1) (fun t => t) (fun _ t => t) satT htc wall tin /\
  r_rate (snd (cond_seg exp R (fun _ => 1) (fun _ => 1) (fun _ => 1) (fun t => t) (fun _ => 1 / 10) (fun _ t => t) (fun _ t => t) (fun f _ => f) satT satP hvap htc wall tin)) < 0.
Proof.
  exists (fun t => t), (fun _ => 1), (fun _ => 260), 1, 250, 260. split; [intros; lra|]. split; [intros; lra|]. split; [lra|]. split; [lra|]. split; [lra|].
  assert (CO : condenses R (fun _ => 1) (fun _ => 1) (fun _ => 1) (fun t => t) (fun _ t => t) (fun _ => 260) 1 250 260).
  { pose proof Reps_small. assert (X : cpMean R (fun _ => 1) (fun _ => 1) (fun t => t) (fun _ t : R => t) (fun _ => 260) 260 = 1) by (unfold cpMean, cpDew; field).
    split; [|lra]. unfold dew_heat, dry_heat. rewrite X. rewrite Rmax_left by lra.
    destruct (towards 1 1 1 260 250 ltac:(lra) ltac:(lra)) as (_ & _ & _ & _ & _ & Q & _). specialize (Q ltac:(lra)). cbv zeta in Q. unfold dry_out. rewrite X.
    set (o := 250 + exp (- (Rmin 1 (100 * 1 * 1) / (1 * 1))) * (260 - 250)) in *. clearbody o. lra. }
  split; [exact CO|].
  destruct (C167_wet R (fun _ => 1) (fun _ => 1) (fun _ => 1) (fun t => t) (fun _ => 1 / 10) (fun _ t => t) (fun _ t => t) (fun f _ => f) (fun _ => 260) (fun t => t) (fun _ => 1) 1 250 260) as (tavg & tc & c & K); try lra; [intros t _; lra|unfold cpDew; lra|exact CO|].
  cbv zeta in K. destruct K as (_ & _ & _ & _ & _ & _ & _ & _ & _ & K & _). apply K. unfold within. rewrite Rmin_left by lra. rewrite Rmax_left by lra. lra.
Qed.
(** Fully degraded, the heats are not numbers. *)
Theorem C167_degraded_refuted : forall ex : float -> float, ex (-0)%float = 1%float ->
  exists (y : dyn float) (f : float), forall pw : float -> float -> float,
   is_nan (h_tot (snd (cond_hx ex float (fun _ => 1%float) (fun _ => 1%float) (fun _ => 1%float) (fun t => t) (fun _ => 0%float) (fun _ t => t) (fun _ t => t) (fun f _ => f)
     (fun _ => 280%float) (fun t => t) (fun _ => 1%float) 1%float (chx_htc (fun _ _ => pw 0%float 0%float) y 1 true 0%float 0%float) [290%float] f))) = true.
Proof.
  intros ex H. exists (mkdyn 1 0 1 10)%float, 300%float. intro pw.
  assert (Z : chx_htc (fun _ _ => pw 0%float 0%float) (mkdyn 1 0 1 10)%float 1 true 0%float 0%float = 0%float) by (vm_compute; reflexivity). rewrite Z. clear Z.
  unfold cond_hx. replace (neps <~ 1%float) with true by (vm_compute; reflexivity). cbn [cond_segs]. unfold cond_seg.
  set (r := nopp _). replace r with (-0)%float by (vm_compute; reflexivity). clear r. rewrite H. vm_compute. reflexivity.
Qed.
Example C167_ex : 0 < cpMean R (fun _ => 1) (fun _ => 1) (fun t => t) (fun _ t => t) (fun _ => 260) 300 /\
  ~ condenses R (fun _ => 1) (fun _ => 1) (fun _ => 1) (fun t => t) (fun _ t => t) (fun _ => 260) 1 310 300.
Proof.
  assert (C : 0 < cpMean R (fun _ => 1) (fun _ => 1) (fun t => t) (fun _ t => t) (fun _ => 260) 300) by (unfold cpMean, cpDew; lra). split; [exact C|].
  intro H. apply C167_dew in H; try exact C; lra.
Qed.
Print Assumptions C167_dry. Print Assumptions C167_dew. Print Assumptions C167_wet. Print Assumptions C167_books. Print Assumptions C167_transport.
Print Assumptions C167_htc. Print Assumptions C167_negative_refuted. Print Assumptions C167_degraded_refuted.

(** ** C168: hatches and quick disconnects *)
Definition open_to (dt : R) (g0 g1 : bool) (v0 v1 : R) : Prop := Reps < dt /\ g0 = false /\ g1 = false /\ 0 < v0 /\ 0 < v1.
Theorem C168_hatch : forall dt g0 g1 v0 v1 drop diff area (a b : @fl R) l0 l1,
  let go := hatch_update dt g0 g1 v0 v1 drop diff area a b l0 l1 in
  (~ open_to dt g0 g1 v0 v1 -> go = Some (0, 0)) /\
  (open_to dt g0 g1 v0 v1 -> Reps < l0 + l1 -> forall d, diff = Some d ->
     exists q, go = Some ((if Rlt_dec (Rabs drop) (1 / 100) then if Rlt_dec (Rabs (d_t a - d_t b)) 20 then d else 0 else 0), q) /\
       cond_flux area a b l0 l1 = Some q /\
       hatch_update dt g1 g0 v1 v0 (- drop) (Some (- d)) area b a l1 l0 = Some ((if Rlt_dec (Rabs drop) (1 / 100) then if Rlt_dec (Rabs (d_t a - d_t b)) 20 then - d else 0 else 0), - q) /\
       (0 <= area -> 0 <= d_k a -> 0 <= d_k b -> 0 <= l0 -> 0 <= l1 -> 0 <= q * (d_t a - d_t b))) /\
  (open_to dt g0 g1 v0 v1 -> l0 + l1 <= Reps -> go = None).
Proof.
  intros dt g0 g1 v0 v1 drop diff area a b l0 l1. cbv zeta.
  assert (D1 : (dp_limit : R) = 1 / 100) by (unfold dp_limit; rnum; unfold Rdec; cbn; lra). assert (D2 : (dt_limit : R) = 20) by (unfold dt_limit; rnum; unfold Rdec; cbn; lra).
  destruct (C156_conduction area a b l0 l1) as [N G].
  assert (OP : forall g0 g1 v0 v1, open_to dt g0 g1 v0 v1 -> (neps <~ dt) && negb g0 && negb g1 && (n0 <~ v0) && (n0 <~ v1) = true).
  { intros h0 h1 w0 w1 (A & -> & -> & B & C). change (Rltb Reps dt && negb false && negb false && Rltb 0 w0 && Rltb 0 w1 = true). rewrite !Rltb_true by assumption. reflexivity. }
  assert (ST : forall dr t0 t1, (nabs dr <~ dp_limit) && (nabs (t0 -~ t1) <~ dt_limit) = if Rlt_dec (Rabs dr) (1 / 100) then if Rlt_dec (Rabs (t0 - t1)) 20 then true else false else false).
  { intros dr t0 t1. rewrite D1, D2. change (Rltb (Rabs dr) (1 / 100) && Rltb (Rabs (t0 - t1)) 20 = if Rlt_dec (Rabs dr) (1 / 100) then if Rlt_dec (Rabs (t0 - t1)) 20 then true else false else false).
    destruct (Rltb_spec (Rabs dr) (1 / 100)), (Rltb_spec (Rabs (t0 - t1)) 20), (Rlt_dec (Rabs dr) (1 / 100)); try contradiction; try destruct (Rlt_dec (Rabs (t0 - t1)) 20); try contradiction; reflexivity. }
  split; [|split].
  - intro Z. unfold hatch_update. destruct ((neps <~ dt) && negb g0 && negb g1 && (n0 <~ v0) && (n0 <~ v1)) eqn:E; [|reflexivity]. exfalso. apply Z.
    change (Rltb Reps dt && negb g0 && negb g1 && Rltb 0 v0 && Rltb 0 v1 = true) in E. rewrite !andb_true_iff, !negb_true_iff in E. destruct E as ((((E1 & E2) & E3) & E4) & E5).
    destruct (Rltb_spec Reps dt); [|discriminate]. destruct (Rltb_spec 0 v0); [|discriminate]. destruct (Rltb_spec 0 v1); [|discriminate]. repeat split; assumption.
  - intros OK L d ->. destruct (G L) as (q & Q & _ & QS & SG). exists q. unfold hatch_update.
    assert (OK' : open_to dt g1 g0 v1 v0) by (unfold open_to in *; tauto). rewrite (OP _ _ _ _ OK), (OP _ _ _ _ OK'), !ST, Q, QS, Rabs_Ropp, (Rabs_minus_sym (d_t b) (d_t a)).
    split; [|split; [reflexivity|split; [|exact SG]]]; destruct (Rlt_dec (Rabs drop) (1 / 100)); try destruct (Rlt_dec (Rabs (d_t a - d_t b)) 20); reflexivity.
  - intros OK L. unfold hatch_update. rewrite (OP _ _ _ _ OK), (N L). destruct (if _ && _ then _ else _); reflexivity.
Qed.
Theorem C168_qd : forall connected (k : R), 0 <= k ->
  let c := qd_conductivity connected k in 0 <= c <= k /\ (connected = false -> c = 0) /\ (connected = true -> c = k).
Proof. intros [|] k K; cbv zeta; unfold qd_conductivity; (split; [change (n0:R) with 0; lra|split; intro; try discriminate; reflexivity]). Qed.
Example C168_ex : exists dt g0 g1 v0 v1 l0 l1, open_to dt g0 g1 v0 v1 /\ Reps < l0 + l1.
Proof. exists 1, false, false, 1, 1, 1, 1. pose proof Reps_small. unfold open_to. repeat split; lra. Qed.
Print Assumptions C168_hatch. Print Assumptions C168_qd.

(** ** C169: phase change *)
Section PHASECHANGE.
Variables (satG satL hL hG hvL hvG : R -> R).
Notation exitT := (phase_exit satG satL).
Notation wallQ := (phase_wall satG satL hL hG hvL hvG).
(** What is taken from one node is given to the other, in the flow's direction. *)
Theorem C169_mass : forall flow : R,
  let t := phase_transport flow in
  fst (fst t) + snd (fst t) = fst (snd t) + snd (snd t) /\
  (100 * Reps < flow -> t = ((flow, 0), (0, flow))) /\ (flow < - (100 * Reps) -> t = ((0, - flow), (- flow, 0))) /\
  (Rabs flow <= 100 * Reps -> t = ((0, 0), (0, 0))).
Proof.
  intros flow. cbv zeta. unfold phase_transport. rewrite hundred_eps. pose proof Reps_pos. change (100 * Reps <~ flow) with (Rltb (100 * Reps) flow). change (flow <~ nopp (100 * Reps)) with (Rltb flow (- (100 * Reps))).
  split. { change (n0 : R) with 0. change (nopp flow) with (- flow). destruct (Rltb (100 * Reps) flow), (Rltb flow (- (100 * Reps))); cbn [fst snd]; lra. }
  split; [|split]; intro A.
  - rewrite (Rltb_true (100 * Reps) flow) by exact A. reflexivity.
  - rewrite (Rltb_false (100 * Reps) flow) by lra. rewrite (Rltb_true flow) by exact A. reflexivity.
  - assert (- (100 * Reps) <= flow <= 100 * Reps) by (unfold Rabs in A; destruct (Rcase_abs flow); lra). rewrite (Rltb_false (100 * Reps) flow) by lra. rewrite (Rltb_false flow) by lra. reflexivity.
Qed.
(** Without efficiency nothing but the phase changes. *)
Theorem C169_adiabatic : forall flow p0 p1 t0 t1 wall,
  exitT 0 flow p0 p1 t0 t1 = (if Rle_dec 0 flow then t0 else t1) /\ wallQ 0 flow p0 p1 t0 t1 wall = 0.
Proof.
  intros. unfold phase_wall, phase_exit, phase_dh. change (0 ==~ n0) with (Reqb 0 0). destruct (Reqb_spec 0 0); [|lra]. cbn [negb]. change (n0 <=~ flow) with (Rleb 0 flow). change (n0 : R) with 0.
  split; [destruct (Rleb_spec 0 flow), (Rle_dec 0 flow); try contradiction; reflexivity|].
  set (q := 0 *~ 0 *~ nabs flow). replace q with 0 by (unfold q; rnum; ring). destruct (_ || _); reflexivity.
Qed.
(** Else the exit is saturated, and the wall's heat is the efficiency's part of the enthalpy the fluid
    loses, latent heat included, or nothing; it goes to a wall no hotter than the exit and comes from one no colder. *)
Definition lost (flow p0 p1 t0 t1 : R) : R :=
  if Rle_dec 0 flow then hL t0 - (hL (satG p1) + 1000 * hvL (satG p1)) else hG t1 + 1000 * hvG (satL p0) - hG (satL p0).
Theorem C169_wall : forall eff flow p0 p1 t0 t1 wall, eff <> 0 ->
  let t := exitT eff flow p0 p1 t0 t1 in let q := wallQ eff flow p0 p1 t0 t1 wall in let q0 := eff * lost flow p0 p1 t0 t1 * Rabs flow in
  t = (if Rle_dec 0 flow then satG p1 else satL p0) /\
  (0 < q -> wall <= t) /\ (q < 0 -> t <= wall) /\ (q = 0 \/ q = q0) /\
  (0 <= q0 -> wall <= t -> q = q0) /\ (q0 <= 0 -> t <= wall -> q = q0).
Proof.
  intros eff flow p0 p1 t0 t1 wall NZ. cbv zeta.
  assert (KI : (kilo : R) = 1000) by (unfold kilo; rnum; unfold Rdec; cbn; lra).
  assert (E : negb (eff ==~ n0) = true). { change (negb (Reqb eff 0) = true). destruct (Reqb_spec eff 0); [contradiction|reflexivity]. }
  assert (T : exitT eff flow p0 p1 t0 t1 = (if Rle_dec 0 flow then satG p1 else satL p0)).
  { unfold phase_exit. rewrite E. change (n0 <=~ flow) with (Rleb 0 flow). destruct (Rleb_spec 0 flow), (Rle_dec 0 flow); try contradiction; reflexivity. }
  assert (D : eff *~ phase_dh satG satL hL hG hvL hvG eff flow p0 p1 t0 t1 *~ nabs flow = eff * lost flow p0 p1 t0 t1 * Rabs flow).
  { unfold phase_dh. rewrite E, T, KI. cbv zeta. change (n0 <=~ flow) with (Rleb 0 flow). unfold lost. destruct (Rleb_spec 0 flow), (Rle_dec 0 flow); try contradiction; rnum; ring. }
  unfold phase_wall. rewrite D, T. split; [reflexivity|]. set (q := eff * lost flow p0 p1 t0 t1 * Rabs flow). clearbody q. set (t := if Rle_dec 0 flow then satG p1 else satL p0). clearbody t. cbv zeta.
  change ((q <~ n0) && (wall <~ t) || (n0 <~ q) && (t <~ wall)) with (Rltb q 0 && Rltb wall t || Rltb 0 q && Rltb t wall). change (n0 : R) with 0.
  destruct (Rltb_spec q 0), (Rltb_spec wall t), (Rltb_spec 0 q), (Rltb_spec t wall); cbn [andb orb]; repeat split; intros; try lra; auto.
Qed.
End PHASECHANGE.
(** With the heat shut off the phase changes all the same: the enthalpy appears from nowhere. *)
Theorem C169_energy_refuted : exists (satG satL hL hG hvL hvG : R -> R) flow p0 p1 t0 t1 wall,
  (forall t, 0 < hvL t) /\ 100 * Reps < flow /\ phase_transport flow = ((flow, 0), (0, flow)) /\
  lost satG satL hL hG hvL hvG flow p0 p1 t0 t1 * Rabs flow < 0 /\ phase_wall satG satL hL hG hvL hvG 1 flow p0 p1 t0 t1 wall = 0.
Proof.
  exists (fun _ => 373), (fun _ => 373), (fun t => t), (fun t => t), (fun _ => 1), (fun _ => 1), 1, 100, 100, 373, 373, 300. pose proof Reps_small.
  split; [intro; lra|]. split; [lra|]. split; [apply (C169_mass 1); lra|].
  assert (L : lost (fun _ => 373) (fun _ => 373) (fun t => t) (fun t => t) (fun _ => 1) (fun _ => 1) 1 100 100 373 373 * Rabs 1 = -1000) by (unfold lost; rewrite (Rabs_right 1) by lra; destruct (Rle_dec 0 1); lra).
  split; [rewrite L; lra|].
  destruct (C169_wall (fun _ => 373) (fun _ => 373) (fun t => t) (fun t => t) (fun _ => 1) (fun _ => 1) 1 1 100 100 373 373 300 ltac:(lra)) as (T & _ & B & [Q|Q] & _); [exact Q|].
  exfalso. rewrite T in B. destruct (Rle_dec 0 1); [|lra]. rewrite Q in B. specialize (B ltac:(lra)). lra.
Qed.
Print Assumptions C169_mass. Print Assumptions C169_adiabatic. Print Assumptions C169_wall. Print Assumptions C169_energy_refuted.
