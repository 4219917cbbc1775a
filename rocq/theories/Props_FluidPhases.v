(** C187-C189: evaporation, the selective membrane and the phase change source. *)
From Coq Require Import Floats.
From Coq Require Import Reals Lra Lia List Arith Bool ZArith.
From Verif Require Import Num Ord MathUtil Props_Math Spec_Valve Props_Valve Props_Thermal FluidFlow Props_FluidFlow FluidSorb Props_FluidSorb Props_FluidSource FluidSources Props_FluidSources.
Import ListNotations.
Local Open Scope R_scope.

(** ** C187: evaporation *)
Notation evapR := (evap_rate powR).
Lemma limit01 v : limit_range n0 v n1 = within 0 v 1.
Proof. apply limit_within. rnum. lra. Qed.
(** The vapor wanted: by how far the vapor is below saturation, and the pool. *)
Definition vapor (c : @evap_cfg R) (block : bool) (v drop pool : R) : R :=
  Rmax 0 drop * e_coef c * powR pool (e_exp c) * (if block then 1 - within 0 v 1 else 1).
Theorem C187_rate : forall (c : @evap_cfg R) block v dt drop pool wg wl,
  let r := evapR c block v dt drop pool wg wl in
  (Reps < wg -> Reps < wl -> Reps < dt -> feps < pool ->
     r * wl / wg = Rmin (vapor c block v drop pool * wl / wg) (pool / dt)) /\
  (pool <= feps \/ dt <= Reps \/ wg <= Reps \/ wl <= Reps -> r = 0).
Proof.
  intros c block v dt drop pool wg wl r. pose proof Reps_pos as E0. unfold r, evap_rate. cbv zeta.
  change (neps <~ wg) with (Rltb Reps wg). change (neps <~ wl) with (Rltb Reps wl).
  change (neps <~ dt) with (Rltb Reps dt). change (feps <~ pool) with (Rltb feps pool).
  rewrite limit01, nmaxR, nminR, block_byR.
  destruct (Rltb_spec Reps wg), (Rltb_spec Reps wl), (Rltb_spec Reps dt), (Rltb_spec feps pool); cbn [andb];
    split; intros; try lra; try reflexivity.
  replace (Rmax drop n0 *~ e_coef c *~ powR pool (e_exp c) * open_to block (within 0 v 1)) with (vapor c block v drop pool)
    by (unfold vapor, open_to; rewrite Rmax_comm; reflexivity).
  set (g := vapor c block v drop pool). clearbody g.
  change (Rmin (g * wl / wg) (pool / dt) * wg / wl * wl / wg = Rmin (g * wl / wg) (pool / dt)). field. lra.
Qed.
Print Assumptions C187_rate.
(** No vapor condenses, and a step never takes more from the pool than it has. *)
Theorem C187_pool : forall (c : @evap_cfg R) block v dt drop pool wg wl, 0 <= e_coef c ->
  let r := evapR c block v dt drop pool wg wl in
  0 <= r /\ (drop <= 0 -> r = 0) /\
  (0 < dt -> 0 <= pool -> evap_flux r wg * wl * dt <= pool) /\
  (block = true -> 1 <= v -> r = 0).
Proof.
  intros c block v dt drop pool wg wl C r. pose proof Reps_pos as E0. pose proof core_feps as [FE _].
  destruct (C187_rate c block v dt drop pool wg wl) as [A B]. fold r in A, B.
  destruct (Rle_dec wg Reps) as [H|H1].
  { rewrite B by auto. unfold evap_flux. change (0 /~ nmax wg neps) with (0 / nmax wg neps). rewrite nmaxR. unfold Rdiv. rewrite !Rmult_0_l.
    repeat split; intros; lra. }
  destruct (Rle_dec wl Reps) as [H|H2].
  { rewrite B by auto. unfold evap_flux. change (0 /~ nmax wg neps) with (0 / nmax wg neps). rewrite nmaxR. unfold Rdiv. rewrite !Rmult_0_l.
    repeat split; intros; lra. }
  destruct (Rle_dec dt Reps) as [H|H3].
  { rewrite B by auto. unfold evap_flux. change (0 /~ nmax wg neps) with (0 / nmax wg neps). rewrite nmaxR. unfold Rdiv. rewrite !Rmult_0_l.
    repeat split; intros; lra. }
  destruct (Rle_dec pool feps) as [H|H4].
  { rewrite B by auto. unfold evap_flux. change (0 /~ nmax wg neps) with (0 / nmax wg neps). rewrite nmaxR. unfold Rdiv. rewrite !Rmult_0_l.
    repeat split; intros; lra. }
  specialize (A ltac:(lra) ltac:(lra) ltac:(lra) ltac:(lra)). clear B.
  assert (VN : 0 <= vapor c block v drop pool).
  { unfold vapor. repeat apply Rmult_le_pos; [apply Rmax_l|exact C|apply powR_nonneg|].
    destruct block; [|lra]. pose proof (within01 v). lra. }
  assert (Q : 0 <= vapor c block v drop pool * wl / wg).
  { unfold Rdiv. apply Rmult_le_pos; [nra|]. left. apply Rinv_0_lt_compat. lra. }
  assert (RE : r = Rmin (vapor c block v drop pool * wl / wg) (pool / dt) * (wg / wl)).
  { rewrite <- A. field. lra. }
  assert (W : 0 < wg / wl) by (apply Rdiv_lt_0_compat; lra).
  assert (PD : 0 < pool / dt) by (apply Rdiv_lt_0_compat; lra).
  split. { rewrite RE. apply Rmult_le_pos; [mm|lra]. }
  split. { intro D. rewrite RE. replace (vapor c block v drop pool) with 0.
           - replace (0 * wl / wg) with 0 by (field; lra). rewrite Rmin_left by lra. lra.
           - unfold vapor. replace (Rmax 0 drop) with 0 by mm. lra. }
  split. { intros DT P. unfold evap_flux. rewrite nmaxR. change (neps : R) with Reps. rewrite Rmax_left by lra.
           change (r / wg * wl * dt <= pool). replace (r / wg * wl * dt) with (r * wl / wg * dt) by (field; lra). rewrite A.
           apply Rle_trans with (pool / dt * dt); [apply Rmult_le_compat_r; [lra|apply Rmin_r]|]. right. field. lra. }
  intros -> V. rewrite RE. replace (vapor c true v drop pool) with 0.
  - replace (0 * wl / wg) with 0 by (field; lra). rewrite Rmin_left by lra. lra.
  - unfold vapor. replace (within 0 v 1) with 1 by (unfold within; mm). lra.
Qed.
Print Assumptions C187_pool.
(** The moles leave one node and join the other; a mass is lost or made only where the molecular
    weights differ. *)
Theorem C187_balance : forall rate wg wl p x psat hv, Reps <= wg ->
  let f := evap_flux rate wg in
  f * wg = rate /\ evap_source f = (- f, f) /\
  (100 * Reps < rate -> evap_transport rate f wl = Some (f * wl, f * wg)) /\
  (rate <= 100 * Reps -> evap_transport rate f wl = None) /\
  evap_drop psat p x = psat - p * x /\ evap_power hv rate = 1000 * hv * rate.
Proof.
  intros rate wg wl p x psat hv W f. pose proof Reps_pos as E0.
  assert (F : f * wg = rate).
  { unfold f, evap_flux. rewrite nmaxR. change (neps : R) with Reps. rewrite Rmax_left by lra. change (rate / wg * wg = rate). field. lra. }
  split; [exact F|]. split; [reflexivity|]. unfold evap_transport. rewrite sorb_limitR. change (100 * Reps <~ rate) with (Rltb (100 * Reps) rate).
  split; [intro H; rewrite (Rltb_true _ _ H), F; reflexivity|].
  split; [intro H; destruct (Rltb_spec (100 * Reps) rate); [lra|reflexivity]|]. split; [reflexivity|].
  unfold evap_power. rewrite dec1000. change (hv * 1000 * rate = 1000 * hv * rate). ring.
Qed.
Print Assumptions C187_balance.
Example C187_puddle : evapR (mkevap (1 / 100) 1) false 0 1 2 50 18 18 * 18 / 18 = 1.
Proof.
  pose proof Reps_small as E1. pose proof core_feps as F1.
  destruct (C187_rate (mkevap (1 / 100) 1) false 0 1 2 50 18 18) as [A _]. rewrite A by lra. unfold vapor. cbn [e_coef e_exp].
  rewrite powR_one by lra. mm.
Qed.

(** ** C188: the selective membrane *)
Definition gap (a b : @side R) : R := z_p a - z_p b.
(** The rate through the membrane: nothing when the ends of the stream disagree; from the stream
    by the upstream difference, no more than 99 hundredths of what the stream brings; into it by
    the downstream difference. *)
Definition crossing (coef flow x : R) (up down ext : @side R) : R :=
  if Rlt_dec (gap down ext * gap up ext) 0 then 0
  else if Rlt_dec 0 (gap up ext) then Rmin (gap up ext * coef) (99 / 100 * Rabs flow * x)
  else Rmin (gap down ext * coef) 1000000.
Lemma million : (ndec 1000000 0 : R) = 1000000.
Proof. rnum. unfold Rdec. cbn [Z.leb Z.compare]. change (10 ^ 0)%Z with 1%Z. lra. Qed.
Theorem C188_rate : forall coef flow x deg v up down ext,
  memb_rate coef flow x deg v up down ext = crossing coef flow x up down ext * (if deg then 1 - within 0 v 1 else 1).
Proof.
  intros. unfold memb_rate, crossing. cbv zeta. rewrite dec99h, million, !nminR, limit01, block_byR.
  change (z_p up -~ z_p ext) with (gap up ext). change (z_p down -~ z_p ext) with (gap down ext).
  change (gap down ext *~ gap up ext <~ n0) with (Rltb (gap down ext * gap up ext) 0). change (n0 <~ gap up ext) with (Rltb 0 (gap up ext)).
  destruct (Rltb_spec (gap down ext * gap up ext) 0), (Rlt_dec (gap down ext * gap up ext) 0); try lra; [change (0 = 0 * (if deg then 1 - within 0 v 1 else 1)); lra|].
  destruct (Rltb_spec 0 (gap up ext)), (Rlt_dec 0 (gap up ext)); try lra; reflexivity.
Qed.
Print Assumptions C188_rate.
(** It goes the way both differences say, and out of the stream it leaves a hundredth of what the
    stream brings, but where the upstream difference is none and the downstream one is outward. *)
Theorem C188_direction : forall coef flow x deg v up down ext, 0 <= coef -> 0 <= x ->
  gap up ext <> 0 \/ gap down ext <= 0 ->
  let r := memb_rate coef flow x deg v up down ext in
  (0 < r -> 0 < gap up ext /\ 0 <= gap down ext) /\
  (r < 0 -> gap up ext <= 0 /\ gap down ext < 0) /\
  r <= 99 / 100 * (Rabs flow * x) /\
  (gap up ext < 0 -> gap down ext < 0 -> deg = false -> r = gap down ext * coef).
Proof.
  intros coef flow x deg v up down ext C X H r. unfold r. rewrite C188_rate. unfold crossing.
  set (u := gap up ext) in *. set (d := gap down ext) in *. clearbody u d.
  set (k := if deg then 1 - within 0 v 1 else 1). assert (K : 0 <= k <= 1) by (unfold k; destruct deg; [pose proof (within01 v); lra|lra]).
  assert (K1 : deg = false -> k = 1) by (unfold k; intros ->; reflexivity). clearbody k.
  assert (FX : 0 <= Rabs flow * x) by (apply Rmult_le_pos; [apply Rabs_pos|exact X]).
  destruct (Rlt_dec (d * u) 0) as [A|A]; [repeat split; intros; nra|].
  destruct (Rlt_dec 0 u) as [B|B].
  - assert (M : 0 <= Rmin (u * coef) (99 / 100 * Rabs flow * x)) by (apply Rmin_glb; nra).
    assert (M2 : Rmin (u * coef) (99 / 100 * Rabs flow * x) <= 99 / 100 * (Rabs flow * x)) by (eapply Rle_trans; [apply Rmin_r|right; ring]).
    set (m := Rmin _ _) in *. clearbody m. repeat split; intros; nra.
  - assert (D : d <= 0) by nra. assert (DC : d * coef <= 0) by nra. rewrite Rmin_left by lra.
    assert (d * coef * k <= 0) by nra.
    split; [intros; lra|]. split; [|split; [lra|intros _ _ Z; rewrite (K1 Z); lra]].
    intro Z. split; [lra|]. destruct (Req_dec d 0) as [->|]; [|lra]. lra.
Qed.
Print Assumptions C188_direction.
(** There the limit fails: a stream that brings none of the compound, beside an outside that has
    none, is made to give it up from the upstream node because the downstream node has some. *)
Theorem C188_limit_refuted : exists coef flow x (up down ext : @side R) w,
  0 < coef /\ x = 0 /\ z_p up = 0 /\ z_p ext = 0 /\
  let r := memb_rate coef flow x false 0 up down ext in
  99 / 100 * (Rabs flow * x) < r /\ fst (fst (memb_source r w)) < 0 /\ fst (fst (memb_gain r)) = - r.
Proof.
  pose proof Reps_small as E1.
  exists 1, 1, 0, (mkside 0 1 1), (mkside 10 20 1), (mkside 0 1 1), 18. cbn [z_p]. repeat (split; [first [reflexivity|lra]|]). cbv zeta.
  assert (RR : memb_rate 1 1 0 false 0 (mkside 0 1 1) (mkside 10 20 1) (mkside 0 1 1) = 10).
  { rewrite C188_rate. unfold crossing, gap. cbn [z_p]. destruct (Rlt_dec ((10 - 0) * (0 - 0)) 0); [lra|].
    destruct (Rlt_dec 0 (0 - 0)); [lra|]. mm. }
  rewrite RR. split; [lra|]. unfold memb_source, memb_gain. cbv zeta. rewrite sorb_limitR.
  change (n0 <~ 10 /~ 18) with (Rltb 0 (10 / 18)). change (100 * Reps <~ 10) with (Rltb (100 * Reps) 10).
  rewrite !Rltb_true by lra. cbn [fst]. split; [change (- (10 / 18) < 0); lra|reflexivity].
Qed.
Print Assumptions C188_limit_refuted.
(** What one side loses the other gains. *)
Definition sum3 (a : R * R * R) : R := fst (fst a) + snd (fst a) + snd a.
Theorem C188_balance : forall r w, w <> 0 ->
  sum3 (memb_source r w) = 0 /\ snd (memb_source r w) = r / w /\ sum3 (memb_gain r) = 0 /\
  (100 * Reps < Rabs r -> snd (memb_gain r) = r) /\ (Rabs r <= 100 * Reps -> memb_gain r = (0, 0, 0)) /\
  (100 * Reps < r -> fst (fst (memb_gain r)) = - r) /\ (r < - (100 * Reps) -> snd (fst (memb_gain r)) = - r) /\
  (0 < r / w -> snd (fst (memb_source r w)) = 0) /\ (r / w <= 0 -> fst (fst (memb_source r w)) = 0).
Proof.
  intros r w W. pose proof Reps_pos as E0. unfold memb_source, memb_gain, sum3. cbv zeta. rewrite sorb_limitR.
  change (n0 <~ r /~ w) with (Rltb 0 (r / w)). change (100 * Reps <~ r) with (Rltb (100 * Reps) r).
  change (r <~ nopp (100 * Reps)) with (Rltb r (- (100 * Reps))). change (r /~ w) with (r / w).
  change (nopp (r / w)) with (- (r / w)). change (nopp r) with (- r). change (n0 : R) with 0.
  set (f := r / w). clearbody f. unfold Rabs.
  destruct (Rltb_spec 0 f), (Rltb_spec (100 * Reps) r), (Rltb_spec r (- (100 * Reps))), (Rcase_abs r); cbn [fst snd];
    repeat split; intros; try lra; reflexivity.
Qed.
Print Assumptions C188_balance.
(** The heat of the phase change: its size, and when there is any. *)
Theorem C188_heat : forall coef flow x deg v up down ext old,
  let m := memb_step coef flow x deg v up down ext old in
  z_rate m = memb_rate coef flow x deg v up down ext /\
  (z_change m = true <-> 0 <= gap down ext * gap up ext /\ z_isat m <> z_esat m) /\
  (z_esat m = true <-> z_sat ext < z_p ext) /\
  (0 <= gap down ext * gap up ext -> 0 < gap up ext -> (z_isat m = true <-> z_sat up < z_p up)) /\
  (0 <= gap down ext * gap up ext -> gap up ext <= 0 -> (z_isat m = true <-> z_sat down < z_p down)) /\
  (z_change m = false -> z_heat m = 0 /\ memb_warm m = (0, 0, 0)) /\
  (z_change m = true -> z_rate m < 0 -> z_heat m = 1000 * z_hv ext * (if z_esat m then - z_rate m else z_rate m)) /\
  (z_change m = true -> 0 <= z_rate m -> z_heat m = 1000 * z_hv up * (if z_isat m then - z_rate m else z_rate m)).
Proof.
  intros coef flow x deg v up down ext old m. unfold m, memb_step. cbv zeta. cbn [z_rate z_isat z_esat z_change z_heat].
  change (z_p up -~ z_p ext) with (gap up ext). change (z_p down -~ z_p ext) with (gap down ext).
  change (gap down ext *~ gap up ext <~ n0) with (Rltb (gap down ext * gap up ext) 0).
  set (r := memb_rate coef flow x deg v up down ext). clearbody r. split; [reflexivity|].
  assert (SAT : forall s : @side R, saturated s = true <-> z_sat s < z_p s).
  { intro s. unfold saturated. change (z_sat s <~ z_p s) with (Rltb (z_sat s) (z_p s)).
    destruct (Rltb_spec (z_sat s) (z_p s)); split; intro; try discriminate; try reflexivity; lra. }
  split; [|split; [apply SAT|split; [|split; [|split; [|split]]]]].
  - destruct (Rltb_spec (gap down ext * gap up ext) 0) as [Q|Q].
    + split; [discriminate|]. intros [P _]. lra.
    + destruct (memb_isat old up down ext), (saturated ext); cbn [xorb]; split; intro K; try discriminate; try reflexivity.
      all: first [split; [lra|discriminate]|destruct K as [_ K]; congruence].
  - intros P U. unfold memb_isat. cbv zeta. change (z_p up -~ z_p ext) with (gap up ext). change (z_p down -~ z_p ext) with (gap down ext).
    change (gap down ext *~ gap up ext <~ n0) with (Rltb (gap down ext * gap up ext) 0). change (n0 <~ gap up ext) with (Rltb 0 (gap up ext)).
    destruct (Rltb_spec (gap down ext * gap up ext) 0); [lra|]. rewrite (Rltb_true _ _ U). apply SAT.
  - intros P U. unfold memb_isat. cbv zeta. change (z_p up -~ z_p ext) with (gap up ext). change (z_p down -~ z_p ext) with (gap down ext).
    change (gap down ext *~ gap up ext <~ n0) with (Rltb (gap down ext * gap up ext) 0). change (n0 <~ gap up ext) with (Rltb 0 (gap up ext)).
    destruct (Rltb_spec (gap down ext * gap up ext) 0); [lra|]. destruct (Rltb_spec 0 (gap up ext)); [lra|]. apply SAT.
  - intro K. unfold memb_warm. cbn [z_change]. rewrite K. split; reflexivity.
  - intros K P. rewrite K. change (r <~ n0) with (Rltb r 0). rewrite (Rltb_true _ _ P), dec1000.
    destruct (saturated ext); rnum; ring.
  - intros K P. rewrite K. change (r <~ n0) with (Rltb r 0). destruct (Rltb_spec r 0); [lra|]. rewrite dec1000.
    destruct (memb_isat old up down ext); rnum; ring.
Qed.
Print Assumptions C188_heat.
(** The sign the source's comment gives, "positive when the source is unsaturated, and negative
    when it is saturated", holds for outward flow and is reversed for inward flow. *)
Theorem C188_sign : forall coef flow x deg v up down ext old,
  let m := memb_step coef flow x deg v up down ext old in
  z_change m = true -> 0 < z_hv up -> 0 < z_hv ext ->
  (0 < z_rate m -> (z_isat m = false -> 0 < z_heat m) /\ (z_isat m = true -> z_heat m < 0)) /\
  (z_rate m < 0 -> (z_esat m = false -> z_heat m < 0) /\ (z_esat m = true -> 0 < z_heat m)).
Proof.
  intros coef flow x deg v up down ext old m CH H1 H2.
  destruct (C188_heat coef flow x deg v up down ext old) as (_ & _ & _ & _ & _ & _ & A & B). fold m in A, B.
  split; intro P; split; intro Q.
  - rewrite (B CH), Q by lra. nra.
  - rewrite (B CH), Q by lra. nra.
  - rewrite (A CH P), Q. nra.
  - rewrite (A CH P), Q. nra.
Qed.
Print Assumptions C188_sign.
Theorem C188_sign_refuted : exists coef flow x (up down ext : @side R),
  let m := memb_step coef flow x false 0 up down ext false in
  z_change m = true /\ z_rate m < 0 /\ z_esat m = false /\ 0 < z_hv ext /\ z_heat m < 0.
Proof.
  exists 1, 1, 1, (mkside 3 1 2000), (mkside 3 1 2000), (mkside 5 10 2000). cbv zeta.
  pose proof (C188_heat 1 1 1 false 0 (mkside 3 1 2000) (mkside 3 1 2000) (mkside 5 10 2000) false) as H. cbv zeta in H.
  set (m := memb_step 1 1 1 false 0 (mkside 3 1 2000) (mkside 3 1 2000) (mkside 5 10 2000) false) in *.
  destruct H as (A & B & C & _ & D & _ & E & _). clearbody m. unfold gap in *. cbn [z_p z_sat z_hv] in *.
  rewrite C188_rate in A. unfold crossing, gap in A. cbn [z_p] in A.
  assert (RR : z_rate m = -2). { rewrite A. destruct (Rlt_dec ((3 - 5) * (3 - 5)) 0); [lra|]. destruct (Rlt_dec 0 (3 - 5)); [lra|]. mm. }
  assert (ES : z_esat m = false). { destruct (z_esat m); [|reflexivity]. exfalso. assert (10 < 5) by (apply C; reflexivity). lra. }
  assert (IS : z_isat m = true). { apply D; lra. }
  assert (CH : z_change m = true). { apply B. split; [lra|]. rewrite IS, ES. discriminate. }
  split; [exact CH|]. split; [lra|]. split; [exact ES|]. split; [lra|]. rewrite (E CH), ES by lra. rewrite RR. lra.
Qed.
Print Assumptions C188_sign_refuted.
(** Where the heat goes: inward it is taken up on the source's side; outward by the downstream
    node of the stream. *)
Theorem C188_warm : forall m : @memb R, z_change m = true ->
  (100 * Reps < z_rate m -> memb_warm m = (0, z_heat m, 0)) /\ (z_rate m <= 100 * Reps -> memb_warm m = (0, 0, z_heat m)).
Proof.
  intros m CH. unfold memb_warm. rewrite CH, sorb_limitR. change (100 * Reps <~ z_rate m) with (Rltb (100 * Reps) (z_rate m)).
  destruct (Rltb_spec (100 * Reps) (z_rate m)); split; intro; try lra; reflexivity.
Qed.
Print Assumptions C188_warm.
Example C188_outward : memb_rate 2 1 (1 / 2) true (1 / 2) (mkside 3 9 2000) (mkside 2 9 2000) (mkside 1 9 2000) = 99 / 400.
Proof.
  rewrite C188_rate. unfold crossing, gap. cbn [z_p]. destruct (Rlt_dec ((2 - 1) * (3 - 1)) 0); [lra|].
  destruct (Rlt_dec 0 (3 - 1)); [|lra]. rewrite Rabs_right by lra. unfold within. mm.
Qed.

(** ** C189: the phase change source *)
(** The power given, all of it, heats and boils the liquid, or cools and condenses the gas. *)
Theorem C189_rate : forall input eff block v dhb lb dhc lc,
  let p := pcs_power input eff block v in
  let r := pcs_rate p dhb lb dhc lc in
  p = input * eff * open_to block v /\
  (0 < p -> feps <= dhb + 1000 * lb -> r * (dhb + 1000 * lb) = p /\ 0 < r) /\
  (p <= 0 -> feps <= dhc + 1000 * lc -> r * (dhc + 1000 * lc) = p /\ r <= 0) /\
  Rabs r * feps <= Rabs p.
Proof.
  intros input eff block v dhb lb dhc lc p r. assert (P : p = input * eff * open_to block v) by apply block_byR.
  split; [exact P|]. clearbody p. clear P. pose proof core_feps as [FE _].
  unfold r, pcs_rate, pcs_heat. rewrite nmaxR, dec1000. change (n0 <~ p) with (Rltb 0 p).
  change (dhb +~ lb *~ 1000) with (dhb + lb * 1000). change (dhc +~ lc *~ 1000) with (dhc + lc * 1000).
  split; [|split].
  - intros H L. rewrite (Rltb_true _ _ H), Rmax_left by lra. replace (dhb + lb * 1000) with (dhb + 1000 * lb) by ring.
    change (p / (dhb + 1000 * lb) * (dhb + 1000 * lb) = p /\ 0 < p / (dhb + 1000 * lb)). split; [field; lra|apply Rdiv_lt_0_compat; lra].
  - intros H L. destruct (Rltb_spec 0 p); [lra|]. rewrite Rmax_left by lra. replace (dhc + lc * 1000) with (dhc + 1000 * lc) by ring.
    change (p / (dhc + 1000 * lc) * (dhc + 1000 * lc) = p /\ p / (dhc + 1000 * lc) <= 0). split; [field; lra|].
    assert (0 < / (dhc + 1000 * lc)) by (apply Rinv_0_lt_compat; lra). unfold Rdiv. nra.
  - set (h := Rmax _ _). assert (HF : feps <= h) by apply Rmax_r. clearbody h.
    change (Rabs (p / h) * feps <= Rabs p). unfold Rdiv. rewrite Rabs_mult, Rabs_inv, (Rabs_right h) by lra.
    replace (Rabs p * / h * feps) with (Rabs p * (feps / h)) by (field; lra). rewrite <- (Rmult_1_r (Rabs p)) at 2.
    apply Rmult_le_compat_l; [apply Rabs_pos|]. apply Rmult_le_reg_r with h; [lra|]. replace (feps / h * h) with (feps : R) by (field; lra). lra.
Qed.
Print Assumptions C189_rate.
(** Mass and moles leave one node for the other. *)
Theorem C189_balance : forall r w, 0 < w ->
  fst (pcs_source r w) + snd (pcs_source r w) = 0 /\ fst (pcs_gain r) + snd (pcs_gain r) = 0 /\
  snd (pcs_source r w) * w = snd (pcs_gain r) /\
  (100 * Reps < Rabs r -> pcs_gain r = (- r, r)) /\ (Rabs r <= 100 * Reps -> pcs_gain r = (0, 0)).
Proof.
  intros r w W. pose proof Reps_pos as E0. unfold pcs_source, pcs_gain. cbv zeta. rewrite sorb_limitR.
  change (100 * Reps <~ nabs r) with (Rltb (100 * Reps) (Rabs r)). change (100 * Reps <~ r) with (Rltb (100 * Reps) r).
  change (r <~ nopp (100 * Reps)) with (Rltb r (- (100 * Reps))). change (r /~ w) with (r / w).
  change (nopp (r / w)) with (- (r / w)). change (nopp r) with (- r). change (n0 : R) with 0.
  assert (Q : r / w * w = r) by (field; lra). set (f := r / w) in *. clearbody f. unfold Rabs in *.
  destruct (Rcase_abs r); [destruct (Rltb_spec (100 * Reps) (- r))|destruct (Rltb_spec (100 * Reps) r)];
    destruct (Rltb_spec (100 * Reps) r), (Rltb_spec r (- (100 * Reps))); cbn [fst snd]; repeat split; intros; try lra; reflexivity.
Qed.
Print Assumptions C189_balance.
Example C189_boils : pcs_rate (pcs_power 2000 1 false 0) 0 2000 0 2000 * 2000000 = 2000.
Proof.
  pose proof core_feps as F1. destruct (C189_rate 2000 1 false 0 0 2000 0 2000) as (A & B & _). cbv zeta in *.
  rewrite A in *. unfold open_to in *. destruct B as [B _]; lra.
Qed.
