(** C193: the crew's metabolism. *)
From Coq Require Import Floats.
From Coq Require Import Reals Lra Lia List Arith Bool ZArith.
From Verif Require Import Num Ord MathUtil Props_Math Spec_Valve Props_Valve Props_Thermal FluidFlow Props_FluidFlow FluidSorb Props_FluidSorb FluidReact Props_FluidReact.
Import ListNotations.
Local Open Scope R_scope.

Lemma fold_by {A} (f : A -> R) l : fold_left (fun a c => a +~ f c) l n0 = total (map f l).
Proof.
  assert (G : forall a, fold_left (fun a c => a +~ f c) l a = a + total (map f l)).
  { induction l as [|x l IH]; intro a; cbn [fold_left map]; [unfold total; cbn; lra|]. rewrite IH. unfold total. cbn [fold_right]. rnum. ring. }
  rewrite G. rnum. lra.
Qed.
(** The rates are the sums over the activities, the oxygen's limited to what a step can take. *)
Theorem C193_rates : forall cs x m dt (s : @breath R), Reps <= dt ->
  let b := breathe cs x m dt s in
  h_o2 b = total (map (fun c => Rmin (x * m / dt) (cw_n c * cw_o2 c)) cs) /\
  h_co2 b = total (map (fun c => cw_n c * cw_co2 c) cs) /\ h_h2o b = total (map (fun c => cw_n c * cw_wat c) cs) /\
  h_q b = total (map (fun c => cw_n c * cw_q c) cs) /\
  let d := h_co2 b + h_h2o b - h_o2 b in (Reps < Rabs d -> h_dem b = d) /\ (Rabs d <= Reps -> h_dem b = 0).
Proof.
  intros cs x m dt s D. unfold breathe. change (dt <~ neps) with (Rltb dt Reps). destruct (Rltb_spec dt Reps); [lra|]. cbv zeta.
  cbn [h_o2 h_co2 h_h2o h_q h_dem]. rewrite !fold_by.
  assert (E : map (fun c : @crew R => nmin (x *~ m /~ dt) (cw_n c *~ cw_o2 c)) cs = map (fun c => Rmin (x * m / dt) (cw_n c * cw_o2 c)) cs)
    by (apply map_ext; intro c; apply nminR).
  rewrite E. do 4 (split; [reflexivity|]).
  set (w := total (map (fun c => cw_n c *~ cw_wat c) cs)). set (c2 := total (map (fun c => cw_n c *~ cw_co2 c) cs)).
  set (o := total (map (fun c => Rmin (x * m / dt) (cw_n c * cw_o2 c)) cs)).
  change (total (map (fun c => cw_n c * cw_co2 c) cs)) with c2. change (total (map (fun c => cw_n c * cw_wat c) cs)) with w. clearbody w c2 o.
  change (w +~ c2 -~ o) with (w + c2 - o). change (nabs (w + c2 - o) <=~ neps) with (Rleb (Rabs (w + c2 - o)) Reps).
  replace (c2 + w - o) with (w + c2 - o) by ring.
  destruct (Rleb_spec (Rabs (w + c2 - o)) Reps); split; intro; try lra; reflexivity.
Qed.
Print Assumptions C193_rates.
(** The rates of an activity are the nominal ones times its factor. *)
Theorem C193_activities : forall nn ns nr ne o2 co2 h2o q fs fr fe : R,
  let l := crew_derive nn ns nr ne o2 co2 h2o q fs fr fe in
  length l = 4%nat /\ map cw_n l = [nn; ns; nr; ne] /\ map cw_o2 l = map (Rmult o2) [1; fs; fr; fe] /\ map cw_co2 l = map (Rmult co2) [1; fs; fr; fe] /\
  map cw_wat l = map (Rmult h2o) [1; fs; fr; fe] /\ map cw_q l = map (Rmult q) [1; fs; fr; fe].
Proof. intros. unfold l, crew_derive. cbn. rewrite !Rmult_1_r. rnum. repeat split. Qed.
Print Assumptions C193_activities.
Theorem C193_paused : forall cs x m dt (s : @breath R), dt < Reps ->
  breathe cs x m dt s = mkbreath (h_o2 s) (h_co2 s) (h_h2o s) (h_q s) 0.
Proof. intros cs x m dt s D. unfold breathe. change (dt <~ neps) with (Rltb dt Reps). rewrite (Rltb_true _ _ D). reflexivity. Qed.
Print Assumptions C193_paused.
(** The crew gives the cabin exactly the demand; and each activity by itself takes no more oxygen
    than there is. *)
Theorem C193_exchange : forall (s : @breath R),
  (Reps < h_dem s -> exhale s = Some (- h_o2 s, h_co2 s, h_h2o s, h_q s)) /\ (h_dem s <= Reps -> exhale s = None).
Proof.
  intro s. unfold exhale. change (neps <~ h_dem s) with (Rltb Reps (h_dem s)). split; intro H.
  - rewrite (Rltb_true _ _ H). reflexivity.
  - destruct (Rltb_spec Reps (h_dem s)); [lra|reflexivity].
Qed.
Print Assumptions C193_exchange.
Theorem C193_oxygen : forall cs x m dt (s : @breath R), Reps <= dt -> 0 <= x * m ->
  h_o2 (breathe cs x m dt s) * dt <= INR (length cs) * (x * m).
Proof.
  intros cs x m dt s D P. destruct (C193_rates cs x m dt s D) as (-> & _). pose proof Reps_pos as E0.
  induction cs as [|c cs IH]; [cbn; lra|]. cbn [map]. unfold total in *. cbn [fold_right]. change (length (c :: cs)) with (S (length cs)). rewrite S_INR.
  set (y := fold_right Rplus 0 _) in *. clearbody y.
  pose proof (Rmin_l (x * m / dt) (cw_n c * cw_o2 c)) as L. set (z := Rmin _ _) in *. clearbody z.
  assert (z * dt <= x * m) by (replace (x * m) with (x * m / dt * dt) by (field; lra); apply Rmult_le_compat_r; lra). lra.
Qed.
Print Assumptions C193_oxygen.
(** So together they may take more than there is: four times. *)
Theorem C193_oxygen_refuted : exists nn ns nr ne o2 co2 h2o q fs fr fe x m dt,
  crew_valid nn ns nr ne o2 co2 h2o q fs fr fe = true /\ Reps <= dt /\ 0 < x * m /\
  forall s : @breath R, h_o2 (breathe (crew_derive nn ns nr ne o2 co2 h2o q fs fr fe) x m dt s) * dt = 4 * (x * m).
Proof.
  pose proof Reps_small as E1. exists 1, 1, 1, 1, 4, 4, 4, 4, 1, 1, 1, 1, 1, 1. split; [|split; [lra|split; [lra|]]].
  - unfold crew_valid, is_in_range. rnum. rcases; try reflexivity; lra.
  - intro s. destruct (C193_rates (crew_derive 1 1 1 1 4 4 4 4 1 1 1) 1 1 1 s) as (-> & _); [lra|].
    unfold crew_derive. cbn [map cw_n cw_o2]. unfold total. cbn [fold_right].
    change (4 *~ 1) with (4 * 1). rewrite !Rmin_left by lra. lra.
Qed.
Print Assumptions C193_oxygen_refuted.
(** A crew that consumes more than it gives off is refused neither by validation nor here, but
    neither its heat nor its breath reaches the cabin. *)
Theorem C193_heat_refuted : exists nn ns nr ne o2 co2 h2o q fs fr fe x m dt,
  crew_valid nn ns nr ne o2 co2 h2o q fs fr fe = true /\ Reps <= dt /\
  forall s : @breath R, let b := breathe (crew_derive nn ns nr ne o2 co2 h2o q fs fr fe) x m dt s in
  0 < h_q b /\ 0 < h_co2 b /\ h_dem b < 0 /\ exhale b = None.
Proof.
  pose proof Reps_small as E1. pose proof Reps_pos as E0. exists 1, 0, 0, 0, 4, 1, 1, 100, 1, 1, 1, 1, 100, 1. split; [|split; [lra|]].
  - unfold crew_valid, is_in_range. rnum. rcases; try reflexivity; lra.
  - intros s b. destruct (C193_rates (crew_derive 1 0 0 0 4 1 1 100 1 1 1) 1 100 1 s) as (A & B & C & D & E & _); [lra|]. fold b in A, B, C, D, E.
    assert (D2 : h_q b = 100) by (rewrite D; unfold crew_derive; cbn; unfold total; cbn; rnum; ring).
    assert (B2 : h_co2 b = 1) by (rewrite B; unfold crew_derive; cbn; unfold total; cbn; rnum; ring).
    assert (C2 : h_h2o b = 1) by (rewrite C; unfold crew_derive; cbn; unfold total; cbn; rnum; ring).
    assert (A2 : h_o2 b = 4). { rewrite A. unfold crew_derive. cbn [map cw_n cw_o2]. unfold total. cbn [fold_right]. change (4 *~ 1) with (4 * 1). rewrite !Rmin_right by lra. lra. }
    rewrite A2, B2, C2 in E. assert (H : h_dem b = 1 + 1 - 4) by (apply E; rewrite Rabs_left; lra).
    split; [lra|]. split; [lra|]. split; [lra|]. apply C193_exchange. lra.
Qed.
Print Assumptions C193_heat_refuted.
(** Moving people between activities. *)
Lemma at_sum' (l : list R) : forall i f, (i < length l)%nat -> total (at_index l i f) = total l + (f (nth i l 0) - nth i l 0).
Proof.
  induction l as [|x l IH]; intros [|i] f L; cbn [length] in L; try lia; cbn [at_index nth].
  - unfold total. cbn [fold_right]. ring.
  - unfold total in *. cbn [fold_right]. rewrite IH by lia. ring.
Qed.
Theorem C193_transition : forall n i j l, 0 <= n -> (i < length l)%nat -> (j < length l)%nat -> (forall k, 0 <= nth k l 0) ->
  let l' := transition n (Some i) (Some j) l in let moved := Rmin n (nth i l 0) in
  length l' = length l /\ total l' = total l /\ (forall k, 0 <= nth k l' 0) /\
  (i <> j -> nth i l' 0 = nth i l 0 - moved /\ nth j l' 0 = nth j l 0 + moved) /\
  (forall k, k <> i -> k <> j -> nth k l' 0 = nth k l 0).
Proof.
  intros n i j l P I J L. unfold transition. change (n <~ n0) with (Rltb n 0). destruct (Rltb_spec n 0) as [Z|Z]; [lra|]. cbv zeta.
  rewrite nminR. change (n0 : R) with 0. set (m := Rmin n (nth i l 0)).
  assert (M : 0 <= m <= nth i l 0) by (unfold m; pose proof (L i); mm).
  assert (N1 : forall k, nth k (at_index l i (fun y => nmax 0 (y -~ m))) 0 = if Nat.eqb k i then nth i l 0 - m else nth k l 0).
  { intro k. rewrite at_nth by exact I. destruct (Nat.eqb_spec k i) as [->|]; [|reflexivity]. rewrite nmaxR. rnum. apply Rmax_right. lra. }
  assert (N2 : forall k, nth k (at_index (at_index l i (fun y => nmax 0 (y -~ m))) j (fun y => nmax 0 (y +~ m))) 0 =
             (if Nat.eqb k i then nth i l 0 - m else nth k l 0) + (if Nat.eqb k j then m else 0)).
  { intro k. rewrite at_nth by (rewrite at_len; exact J). rewrite N1. destruct (Nat.eqb_spec k j) as [->|].
    - rewrite nmaxR. rnum. apply Rmax_right. destruct (Nat.eqb j i); pose proof (L j); lra.
    - ring. }
  split; [rewrite !at_len; reflexivity|]. split; [|split; [|split]].
  - rewrite !at_sum' by (rewrite ?at_len; assumption). rewrite N1, !nmaxR. rnum. rewrite (Rmax_right 0 (nth i l 0 - m)) by lra.
    rewrite Rmax_right by (destruct (Nat.eqb j i); pose proof (L j); lra). ring.
  - intro k. rewrite N2. pose proof (L k). destruct (Nat.eqb k i), (Nat.eqb k j); lra.
  - intro D. rewrite !N2, !Nat.eqb_refl. destruct (Nat.eqb_spec i j); [contradiction|]. destruct (Nat.eqb_spec j i); [congruence|]. split; ring.
  - intros k K1 K2. rewrite N2. destruct (Nat.eqb_spec k i); [contradiction|]. destruct (Nat.eqb_spec k j); [contradiction|]. ring.
Qed.
Print Assumptions C193_transition.
(** People come and go with the other end outside. *)
Theorem C193_leave : forall n i l, 0 <= n -> (i < length l)%nat -> (forall k, 0 <= nth k l 0) ->
  (forall k, nth k (transition n (Some i) None l) 0 = nth k l 0 - (if Nat.eqb k i then Rmin n (nth i l 0) else 0)) /\
  (forall k, nth k (transition n None (Some i) l) 0 = nth k l 0 + (if Nat.eqb k i then n else 0)) /\
  transition n None None l = l /\ forall f t m, m < 0 -> transition m f t l = l.
Proof.
  intros n i l P I L. unfold transition. change (n <~ n0) with (Rltb n 0). destruct (Rltb_spec n 0) as [Z|Z]; [lra|]. cbv zeta.
  rewrite nminR. change (n0 : R) with 0. split; [|split; [|split; [reflexivity|]]].
  - intro k. rewrite at_nth by exact I. destruct (Nat.eqb_spec k i) as [->|]; [|ring]. rewrite nmaxR. rnum. pose proof (L i). apply Rmax_right. mm.
  - intro k. rewrite at_nth by exact I. destruct (Nat.eqb_spec k i) as [->|]; [|ring]. rewrite nmaxR. rnum. pose proof (L i). apply Rmax_right. lra.
  - intros f t m M. change (m <~ 0) with (Rltb m 0). rewrite (Rltb_true _ _ M). reflexivity.
Qed.
Print Assumptions C193_leave.
Theorem C193_accepted : forall nn ns nr ne o2 co2 h2o q fs fr fe : R,
  crew_valid nn ns nr ne o2 co2 h2o q fs fr fe = true <->
  (0 <= nn /\ 0 <= ns /\ 0 <= nr /\ 0 <= ne) /\ (0 <= o2 /\ 0 <= co2 /\ 0 <= h2o /\ 0 <= q) /\ 0 <= fs <= 1 /\ 1 <= fr <= fe.
Proof.
  intros. unfold crew_valid, is_in_range. change (n0 : R) with 0. change (n1 : R) with 1.
  repeat match goal with |- context [?a <~ ?b] => change (a <~ b) with (Rltb a b) end.
  repeat match goal with |- context [?a <=~ ?b] => change (a <=~ b) with (Rleb a b) end.
  rewrite !andb_true_iff, !negb_true_iff.
  assert (LT : forall a b, Rltb a b = false <-> b <= a) by (intros a b; destruct (Rltb_spec a b); split; intro; try discriminate; try reflexivity; lra).
  assert (LE : forall a b, Rleb a b = true <-> a <= b) by (intros a b; destruct (Rleb_spec a b); split; intro; try discriminate; try reflexivity; lra).
  rewrite ?LT, ?LE. tauto.
Qed.
Print Assumptions C193_accepted.
Example C193_day : forall l, l = [4; 0; 0; 2] -> transition 1 (Some 0%nat) (Some 1%nat) l = [3; 1; 0; 2].
Proof.
  intros l ->. unfold transition. cbn [nth at_index]. rnum. unfold nmax, nmin. rnum. rcases; try lra; repeat f_equal; lra.
Qed.
