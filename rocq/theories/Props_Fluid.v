(** C109-C112: fluid mixtures. *)
From Coq Require Import Floats.
From Coq Require Import Reals Lra Lia List Arith Bool ZArith.
From Verif Require Import Num MathUtil Fluid Spec_Fluid.
Import ListNotations.
Open Scope R_scope.

(** ** Sums *)
Lemma fold_add_R {A} (g : A -> R) l : forall acc,
  fold_left (fun a x => a + g x) l acc = acc + rsum (map g l).
Proof.
  induction l as [|x l IH]; intro acc; cbn [fold_left map rsum fold_right]; [lra|].
  rewrite IH. fold (rsum (map g l)). lra.
Qed.
Lemma fold_nadd_R l : fold_left nadd l (n0 : R) = rsum l.
Proof.
  pose proof (fold_add_R (fun x : R => x) l 0) as H. rewrite map_id in H.
  rewrite Rplus_0_l in H. exact H.
Qed.
Lemma tsum_R g (cs : list (const R)) : tsum g cs = rsum (map g cs).
Proof. unfold tsum. rnum. rewrite fold_add_R. lra. Qed.
Lemma cond_sum_R (p : const R -> bool) g (cs : list (const R)) : forall acc,
  fold_left (fun a c => if p c then a + g c else a) cs acc =
  acc + rsum (map (fun c => if p c then g c else 0) cs).
Proof.
  induction cs as [|c cs IH]; intro acc; cbn [fold_left map rsum fold_right]; [lra|].
  rewrite IH. unfold rsum. destruct (p c); lra.
Qed.
Lemma xsum_R g (cs : list (const R)) :
  xsum g cs = rsum (map (fun c => if Rltb Reps (Rabs (c_x c)) then g c else 0) cs).
Proof. unfold xsum. rnum. rewrite (cond_sum_R (fun c => Rltb Reps (Rabs (c_x c)))). lra. Qed.
Lemma ysum_R g (cs : list (const R)) :
  ysum g cs = rsum (map (fun c => if Rltb Reps (Rabs (c_y c)) then g c else 0) cs).
Proof. unfold ysum. rnum. rewrite (cond_sum_R (fun c => Rltb Reps (Rabs (c_y c)))). lra. Qed.

Lemma rsum_ext {A} (g h : A -> R) l : (forall x, In x l -> g x = h x) ->
  rsum (map g l) = rsum (map h l).
Proof. intro H. f_equal. now apply map_ext_in. Qed.
Lemma rsum_scale {A} k (g : A -> R) l : rsum (map (fun x => k * g x) l) = k * rsum (map g l).
Proof. induction l as [|x l IH]; cbn [map rsum fold_right]; [lra|]. unfold rsum in *. rewrite IH. lra. Qed.
Lemma rsum_scale_r {A} k (g : A -> R) l : rsum (map (fun x => g x * k) l) = rsum (map g l) * k.
Proof. induction l as [|x l IH]; cbn [map rsum fold_right]; [lra|]. unfold rsum in *. rewrite IH. lra. Qed.
Lemma rsum_add {A} (g h : A -> R) l :
  rsum (map (fun x => g x + h x) l) = rsum (map g l) + rsum (map h l).
Proof. induction l as [|x l IH]; cbn [map rsum fold_right]; [lra|]. unfold rsum in *. rewrite IH. lra. Qed.
Lemma rsum_nonneg {A} (g : A -> R) l : (forall x, In x l -> 0 <= g x) -> 0 <= rsum (map g l).
Proof.
  induction l as [|x l IH]; intro H; cbn [map rsum fold_right]; [lra|].
  unfold rsum in *. specialize (H x (or_introl eq_refl)) as H1.
  assert (H2 : 0 <= fold_right Rplus 0 (map g l)) by (apply IH; intros; apply H; now right). lra.
Qed.
Lemma rsum_le {A} (g h : A -> R) l : (forall x, In x l -> g x <= h x) ->
  rsum (map g l) <= rsum (map h l).
Proof.
  induction l as [|x l IH]; intro H; cbn [map rsum fold_right]; [lra|].
  unfold rsum in *. specialize (H x (or_introl eq_refl)) as H1.
  assert (H2 : fold_right Rplus 0 (map g l) <= fold_right Rplus 0 (map h l))
    by (apply IH; intros; apply H; now right). lra.
Qed.

(** ** Constants and limits *)
Lemma flt_val : (flt_eps : R) = fltR.
Proof. unfold flt_eps, fltR. rnum. unfold Reps, Rdec.
  change (2 ^ 52)%Z with (536870912 * 8388608)%Z. rewrite mult_IZR. field. Qed.
Lemma tol_val : (frac_tol : R) = / 10000.
Proof. unfold frac_tol. rnum. unfold Rdec. cbn. lra. Qed.
Lemma flt_pos : 0 < fltR /\ fltR < / 1000000.
Proof. unfold fltR. lra. Qed.
Lemma eps_lt_flt : Reps < / 1000000000.
Proof. pose proof Reps_small. lra. Qed.
Lemma eps2_pos : 0 < (eps2 : R) /\ (eps2 : R) < Reps.
Proof.
  unfold eps2. rnum. pose proof Reps_pos. pose proof Reps_small. split; nra.
Qed.
Lemma dlim_id (v : R) : Reps <= v -> dlim v = v.
Proof.
  intro H. unfold dlim, inner_limit. rnum. pose proof Reps_pos.
  destruct (Rltb_spec (- Reps) v); destruct (Rltb_spec v Reps); cbn [andb]; try reflexivity; lra.
Qed.
Lemma dlim2_id (v : R) : (eps2 : R) <= v -> dlim2 v = v.
Proof.
  unfold dlim2, inner_limit. generalize (eps2 : R) as e. intros e H. rnum.
  destruct (Rltb_spec (- e) v); destruct (Rltb_spec v e); cbn [andb]; try reflexivity; lra.
Qed.

(** ** Zipping *)
Lemma zip_length {A B C} (g : A -> B -> C) l m : length l = length m -> length (zip_with g l m) = length l.
Proof. intro H. unfold zip_with. rewrite map_length, combine_length, H. apply Nat.min_id. Qed.
Lemma zip_in {A B C} (g : A -> B -> C) l m z : In z (zip_with g l m) ->
  exists a b, In a l /\ In b m /\ z = g a b.
Proof.
  unfold zip_with. intro H. apply in_map_iff in H. destruct H as [[a b] [E H]].
  exists a, b. split; [now apply in_combine_l in H|]. split; [now apply in_combine_r in H|]. now symmetry.
Qed.
Lemma zip_map_snd {A B C} (g : A -> B -> C) (h : C -> B) l m : length l = length m ->
  (forall a b, h (g a b) = b) -> map h (zip_with g l m) = m.
Proof.
  revert m. induction l as [|a l IH]; intros [|b m] HL H; cbn in *; try discriminate; [reflexivity|].
  rewrite H. f_equal. apply IH; [lia|exact H].
Qed.
Lemma zip_map_fst {A B C D} (g : A -> B -> C) (h : C -> D) (k : A -> D) l m : length l = length m ->
  (forall a b, h (g a b) = k a) -> map h (zip_with g l m) = map k l.
Proof.
  revert m. induction l as [|a l IH]; intros [|b m] HL H; cbn in *; try discriminate; [reflexivity|].
  rewrite H. f_equal. apply IH; [lia|exact H].
Qed.

(** ** C109: the composition bookkeeping *)

(** The acceptance test: fractions adding up to one within 1e-4, rescaled when off by
    more than FLT_EPSILON. *)
Lemma check_spec fr :
  check_fractions fr =
  (if Rlt_dec (/ 10000) (Rabs (1 - rsum fr)) then None
   else Some (if Rlt_dec fltR (Rabs (1 - rsum fr)) then map (fun x => x / rsum fr) fr else fr)).
Proof.
  unfold check_fractions. rewrite fold_nadd_R, flt_val, tol_val. rnum. unfold Rltb.
  destruct (Rlt_dec (/ 10000) (Rabs (1 - rsum fr))); [reflexivity|].
  destruct (Rlt_dec fltR (Rabs (1 - rsum fr))); reflexivity.
Qed.
Lemma rsum_map_id l : rsum (map (fun x => x) l) = rsum l.
Proof. now rewrite map_id. Qed.
Lemma check_sum fr fr' : check_fractions fr = Some fr' ->
  Rabs (1 - rsum fr') <= fltR /\ length fr' = length fr /\
  (Forall (fun x => 0 <= x) fr -> Forall (fun x => 0 <= x) fr').
Proof.
  rewrite check_spec. destruct (Rlt_dec (/ 10000) (Rabs (1 - rsum fr))); [discriminate|].
  intro H. injection H as <-. pose proof flt_pos as [F1 F2].
  assert (HP : 0 < rsum fr).
  { unfold Rabs in *. destruct (Rcase_abs (1 - rsum fr)); lra. }
  destruct (Rlt_dec fltR (Rabs (1 - rsum fr))) as [H2|H2].
  - split; [|split].
    + unfold Rdiv. rewrite (rsum_scale_r (/ rsum fr) (fun x => x)), map_id.
      rewrite Rinv_r by lra. replace (1 - 1) with 0 by lra. rewrite Rabs_R0. lra.
    + apply map_length.
    + intro HF. rewrite Forall_forall in *. intros y Hy. apply in_map_iff in Hy.
      destruct Hy as [x [<- Hx]]. specialize (HF _ Hx). unfold Rdiv.
      apply Rmult_le_pos; [exact HF|]. left. now apply Rinv_0_lt_compat.
  - split; [lra|]. split; [reflexivity|]. trivial.
Qed.

Lemma sum_over_weights cs : Forall (fun c : const R => 1 <= c_mw c <= 1000) cs ->
  forall (g : const R -> R), (forall c, In c cs -> 0 <= g c) ->
  rsum (map g cs) / 1000 <= rsum (map (fun c => g c / c_mw c) cs) <= rsum (map g cs).
Proof.
  intros HW g Hg. unfold Rdiv at 1. rewrite <- (rsum_scale_r (/ 1000) g).
  rewrite Forall_forall in HW. split; apply rsum_le; intros c Hc; specialize (HW c Hc); specialize (Hg c Hc).
  - unfold Rdiv. apply Rmult_le_compat_l; [exact Hg|]. apply Rinv_le_contravar; lra.
  - unfold Rdiv. rewrite <- (Rmult_1_r (g c)) at 2. apply Rmult_le_compat_l; [exact Hg|].
    rewrite <- Rinv_1. apply Rinv_le_contravar; lra.
Qed.

(** The state written by setMassAndMassFractions, once the fractions are accepted. *)
Lemma mass_fractions_balanced f m fr f' : real_types f ->
  Forall (fun x => 0 <= x) (firstn (length (f_cs f)) fr) ->
  set_mass_fractions f m fr = Ok f' ->
  balanced f' /\ f_mass f' = m /\ map c_pr (f_cs f') = map c_pr (f_cs f) /\ f_w f' = f_w f /\
  exists fr', check_fractions (firstn (length (f_cs f)) fr) = Some fr' /\ map c_x (f_cs f') = fr'.
Proof.
  intros HT HN H. unfold set_mass_fractions in H.
  destruct (length fr <? length (f_cs f))%nat eqn:HL; [discriminate|]. apply Nat.ltb_ge in HL.
  destruct (check_fractions (firstn (length (f_cs f)) fr)) as [xs|] eqn:HC; [|discriminate].
  destruct (check_sum _ _ HC) as [HS [HXL HXN]]. specialize (HXN HN).
  assert (HLx : length (f_cs f) = length xs) by (rewrite HXL, firstn_length; lia).
  set (cs := zip_with (fun c x => cset_y (cset_x c x) (x /~ c_mw c)) (f_cs f) xs) in *.
  assert (HX : map c_x cs = xs) by (apply zip_map_snd; [exact HLx|reflexivity]).
  assert (HP : map c_pr cs = map c_pr (f_cs f)) by (apply zip_map_fst; [exact HLx|reflexivity]).
  assert (HY : forall c, In c cs -> c_y c = c_x c / c_mw c /\ 0 <= c_x c /\ 1 <= c_mw c <= 1000).
  { intros c Hc. apply zip_in in Hc. destruct Hc as [a [x [Ha [Hx ->]]]]. cbn [cset_y cset_x c_x c_y c_mw c_pr].
    split; [reflexivity|]. split; [rewrite Forall_forall in HXN; now apply HXN|].
    unfold real_types in HT. rewrite Forall_forall in HT. exact (HT a Ha). }
  assert (HW : Forall (fun c : const R => 1 <= c_mw c <= 1000) cs)
    by (apply Forall_forall; intros c Hc; apply HY, Hc).
  assert (HM : rsum (map c_y cs) = rsum (map (fun c => c_x c / c_mw c) cs))
    by (apply rsum_ext; intros c Hc; apply HY, Hc).
  assert (HB := sum_over_weights cs HW c_x (fun c Hc => proj1 (proj2 (HY c Hc)))).
  rewrite HX in HB. rewrite tsum_R in H. set (mpm := rsum (map c_y cs)) in *.
  pose proof flt_pos as [F1 F2]. pose proof eps_lt_flt as FE.
  assert (HMP : / 2000 < mpm) by (rewrite HM; unfold Rabs in HS; destruct (Rcase_abs (1 - rsum xs)); lra).
  rewrite (dlim_id mpm) in H by lra. injection H as <-.
  assert (HD : forall c, In c cs -> c_x c = c_y c * c_mw c).
  { intros c Hc. destruct (HY c Hc) as [E [_ HB2]]. rewrite E. field. lra. }
  assert (HIn : forall d, In d (map (fun c => let c := cset_y c (c_y c /~ mpm) in
      cset_w (cset_mole c (c_y c *~ (m /~ (n1 /~ mpm)))) (c_x c *~ f_w f)) cs) ->
    exists c, In c cs /\ d = (let c := cset_y c (c_y c /~ mpm) in
      cset_w (cset_mole c (c_y c *~ (m /~ (n1 /~ mpm)))) (c_x c *~ f_w f))).
  { intros d Hd. apply in_map_iff in Hd. destruct Hd as [c [E Hc]]. exists c. split; [exact Hc|now symmetry]. }
  split; [|split; [|split; [|split]]]; cbn [f_mass f_cs f_w].
  - constructor; cbn [f_mass f_mole f_mw f_cs f_w].
    + intros d Hd. destruct (HIn d Hd) as [c [Hc ->]].
      unfold c_mw in *. cbn [cset_w cset_mole cset_y c_mass c_x c_y c_pr]. unfold c_mw. cbn [cset_y c_pr].
      specialize (HD c Hc). specialize (HY c Hc). rnum. rewrite HD. field. lra.
    + intros d Hd. destruct (HIn d Hd) as [c [Hc ->]]. reflexivity.
    + intros d Hd. destruct (HIn d Hd) as [c [Hc ->]]. reflexivity.
    + intros d Hd. destruct (HIn d Hd) as [c [Hc ->]]. reflexivity.
    + intros d Hd. destruct (HIn d Hd) as [c [Hc ->]].
      cbn [cset_w cset_mole cset_y c_mass c_x c_y c_mw c_pr]. destruct (HY c Hc) as [E [HP2 HB2]].
      split; [exact HP2|]. rnum. rewrite E. unfold Rdiv.
      repeat apply Rmult_le_pos; [exact HP2| |]; left; apply Rinv_0_lt_compat; lra.
    + intros d Hd. destruct (HIn d Hd) as [c [Hc ->]].
      cbn [cset_w cset_mole cset_y c_mass c_x c_y c_mw c_pr]. unfold c_mw in HD.
      specialize (HD c Hc). rnum. rewrite HD. field. lra.
    + rnum. field. lra.
    + unfold total. cbn [f_cs]. rewrite map_map.
      rewrite (map_ext _ c_x) by reflexivity. rewrite HX. exact HS.
    + unfold total. cbn [f_cs]. rewrite map_map. cbn [cset_w cset_mole cset_y c_y].
      rnum. unfold Rdiv. rewrite (rsum_scale_r (/ mpm) c_y). fold mpm. rewrite Rinv_r by lra.
      replace (1 - 1) with 0 by lra. rewrite Rabs_R0. lra.
  - reflexivity.
  - rewrite map_map. rewrite <- HP. reflexivity.
  - reflexivity.
  - exists xs. split; [reflexivity|]. rewrite map_map. exact HX.
Qed.

Lemma rabs_le a b : Rabs a <= b -> - b <= a <= b.
Proof. unfold Rabs. destruct (Rcase_abs a); lra. Qed.

Lemma mole_fractions_balanced f n fr f' : real_types f ->
  Forall (fun x => 0 <= x) (firstn (length (f_cs f)) fr) ->
  set_mole_fractions f n fr = Ok f' ->
  balanced f' /\ f_mole f' = n /\ map c_pr (f_cs f') = map c_pr (f_cs f) /\ f_w f' = f_w f /\
  exists fr', check_fractions (firstn (length (f_cs f)) fr) = Some fr' /\ map c_y (f_cs f') = fr'.
Proof.
  intros HT HN H. unfold set_mole_fractions in H.
  destruct (length fr <? length (f_cs f))%nat eqn:HL; [discriminate|]. apply Nat.ltb_ge in HL.
  destruct (check_fractions (firstn (length (f_cs f)) fr)) as [ys|] eqn:HC; [|discriminate].
  destruct (check_sum _ _ HC) as [HS [HXL HXN]]. specialize (HXN HN).
  assert (HLx : length (f_cs f) = length ys) by (rewrite HXL, firstn_length; lia).
  set (cs := zip_with (fun c y => cset_x (cset_y c y) (y *~ c_mw c)) (f_cs f) ys) in *.
  assert (HX : map c_y cs = ys) by (apply zip_map_snd; [exact HLx|reflexivity]).
  assert (HP : map c_pr cs = map c_pr (f_cs f)) by (apply zip_map_fst; [exact HLx|reflexivity]).
  assert (HY : forall c, In c cs -> c_x c = c_y c * p_mw (c_pr c) /\ 0 <= c_y c /\ 1 <= p_mw (c_pr c) <= 1000).
  { intros c Hc. apply zip_in in Hc. destruct Hc as [a [x [Ha [Hx ->]]]]. cbn [cset_y cset_x c_x c_y c_mw c_pr].
    split; [reflexivity|]. split; [rewrite Forall_forall in HXN; now apply HXN|].
    unfold real_types in HT. rewrite Forall_forall in HT. exact (HT a Ha). }
  assert (HB : rsum (map c_y cs) <= rsum (map c_x cs)).
  { apply rsum_le. intros c Hc. destruct (HY c Hc) as [E [H1 H2]]. rewrite E. nra. }
  rewrite HX in HB. rewrite tsum_R in H. set (mw := rsum (map c_x cs)) in *.
  pose proof flt_pos as [F1 F2]. pose proof eps_lt_flt as FE. pose proof (rabs_le _ _ HS) as HS2.
  assert (HMP : / 2 < mw) by lra. assert (HMW : rsum (map c_x cs) = mw) by reflexivity. clearbody mw.
  rewrite (dlim_id mw) in H by lra. injection H as <-.
  assert (HIn : forall d, In d (map (fun c => let c := cset_x c (c_x c /~ mw) in
      cset_w (cset_mass c (c_x c *~ (n *~ mw))) (c_x c *~ f_w f)) cs) ->
    exists c, In c cs /\ d = (let c := cset_x c (c_x c /~ mw) in
      cset_w (cset_mass c (c_x c *~ (n *~ mw))) (c_x c *~ f_w f))).
  { intros d Hd. apply in_map_iff in Hd. destruct Hd as [c [E Hc]]. exists c. split; [exact Hc|now symmetry]. }
  split; [|split; [|split; [|split]]]; cbn [f_mole f_cs f_w].
  - constructor; cbn [f_mass f_mole f_mw f_cs f_w].
    + intros d Hd. destruct (HIn d Hd) as [c [Hc ->]]. reflexivity.
    + intros d Hd. destruct (HIn d Hd) as [c [Hc ->]].
      cbn [cset_w cset_mass cset_x c_mole c_x c_y c_pr]. unfold c_mw. cbn [cset_x c_pr].
      destruct (HY c Hc) as [E [H1 H2]]. rnum. rewrite E. field. lra.
    + intros d Hd. destruct (HIn d Hd) as [c [Hc ->]].
      cbn [cset_w cset_mass cset_x c_mass c_mole c_x c_y c_pr]. unfold c_mw. cbn [cset_x c_pr].
      destruct (HY c Hc) as [E [H1 H2]]. rnum. field. lra.
    + intros d Hd. destruct (HIn d Hd) as [c [Hc ->]]. reflexivity.
    + intros d Hd. destruct (HIn d Hd) as [c [Hc ->]].
      cbn [cset_w cset_mass cset_x c_x c_y c_pr]. destruct (HY c Hc) as [E [H1 H2]].
      split; [|exact H1]. rnum. rewrite E. unfold Rdiv.
      repeat apply Rmult_le_pos; try lra. left; apply Rinv_0_lt_compat; lra.
    + intros d Hd. destruct (HIn d Hd) as [c [Hc ->]].
      cbn [cset_w cset_mass cset_x c_x c_y c_pr]. destruct (HY c Hc) as [E [H1 H2]].
      rnum. rewrite E. field. lra.
    + reflexivity.
    + unfold total. cbn [f_cs]. rewrite map_map. cbn [cset_w cset_mass cset_x c_x].
      rnum. unfold Rdiv. rewrite (rsum_scale_r (/ mw) c_x), HMW. rewrite Rinv_r by lra.
      replace (1 - 1) with 0 by lra. rewrite Rabs_R0. lra.
    + unfold total. cbn [f_cs]. rewrite map_map.
      rewrite (map_ext _ c_y) by reflexivity. rewrite HX. exact HS.
  - reflexivity.
  - rewrite map_map. rewrite <- HP. reflexivity.
  - reflexivity.
  - exists ys. split; [reflexivity|]. rewrite map_map. exact HX.
Qed.

(** setMassAndMassFractions takes exactly the fractions that add up to one within
    1e-4, scales them when they are off by more than FLT_EPSILON, and leaves a
    consistent mixture of the mass asked for. *)
Theorem C109_mass_fractions : forall f m fr, real_types f ->
  (length (f_cs f) <= length fr)%nat ->
  Forall (fun x => 0 <= x) (firstn (length (f_cs f)) fr) ->
  let given := firstn (length (f_cs f)) fr in
  (/ 10000 < Rabs (1 - rsum given) -> set_mass_fractions f m fr = Throws) /\
  (Rabs (1 - rsum given) <= / 10000 ->
     exists f', set_mass_fractions f m fr = Ok f' /\ balanced f' /\ f_mass f' = m /\
       map c_pr (f_cs f') = map c_pr (f_cs f) /\ f_w f' = f_w f /\
       map c_x (f_cs f') =
         if Rlt_dec fltR (Rabs (1 - rsum given)) then map (fun x => x / rsum given) given else given).
Proof.
  intros f m fr HT HL HN given. subst given.
  assert (E : set_mass_fractions f m fr <> Ub /\
    (set_mass_fractions f m fr = Throws <-> check_fractions (firstn (length (f_cs f)) fr) = None)).
  { unfold set_mass_fractions. replace (length fr <? length (f_cs f))%nat with false by (symmetry; apply Nat.ltb_ge; lia).
    destruct (check_fractions _); split; try discriminate; split; congruence. }
  destruct E as [E1 E2]. rewrite check_spec in E2. split; intro H.
  - apply E2. destruct (Rlt_dec (/ 10000) _); [reflexivity|contradiction].
  - destruct (set_mass_fractions f m fr) as [f'| |] eqn:E; [|exfalso|contradiction].
    + destruct (mass_fractions_balanced _ _ _ _ HT HN E) as [B [M [P [W [xs [C X]]]]]].
      exists f'. repeat (split; [reflexivity || assumption|]).
      rewrite check_spec in C. destruct (Rlt_dec (/ 10000) _); [lra|]. injection C as <-. exact X.
    + destruct E2 as [E2 _]. specialize (E2 eq_refl). destruct (Rlt_dec (/ 10000) _); [lra|discriminate].
Qed.
Theorem C109_mole_fractions : forall f n fr, real_types f ->
  (length (f_cs f) <= length fr)%nat ->
  Forall (fun x => 0 <= x) (firstn (length (f_cs f)) fr) ->
  let given := firstn (length (f_cs f)) fr in
  (/ 10000 < Rabs (1 - rsum given) -> set_mole_fractions f n fr = Throws) /\
  (Rabs (1 - rsum given) <= / 10000 ->
     exists f', set_mole_fractions f n fr = Ok f' /\ balanced f' /\ f_mole f' = n /\
       map c_pr (f_cs f') = map c_pr (f_cs f) /\ f_w f' = f_w f /\
       map c_y (f_cs f') =
         if Rlt_dec fltR (Rabs (1 - rsum given)) then map (fun x => x / rsum given) given else given).
Proof.
  intros f n fr HT HL HN given. subst given.
  assert (E : set_mole_fractions f n fr <> Ub /\
    (set_mole_fractions f n fr = Throws <-> check_fractions (firstn (length (f_cs f)) fr) = None)).
  { unfold set_mole_fractions. replace (length fr <? length (f_cs f))%nat with false by (symmetry; apply Nat.ltb_ge; lia).
    destruct (check_fractions _); split; try discriminate; split; congruence. }
  destruct E as [E1 E2]. rewrite check_spec in E2. split; intro H.
  - apply E2. destruct (Rlt_dec (/ 10000) _); [reflexivity|contradiction].
  - destruct (set_mole_fractions f n fr) as [f'| |] eqn:E; [|exfalso|contradiction].
    + destruct (mole_fractions_balanced _ _ _ _ HT HN E) as [B [M [P [W [xs [C X]]]]]].
      exists f'. repeat (split; [reflexivity || assumption|]).
      rewrite check_spec in C. destruct (Rlt_dec (/ 10000) _); [lra|]. injection C as <-. exact X.
    + destruct E2 as [E2 _]. specialize (E2 eq_refl). destruct (Rlt_dec (/ 10000) _); [lra|discriminate].
Qed.

(** The molecular weight of a consistent mixture is between those of its
    constituents. *)
Lemma balanced_mw f : real_types f -> balanced f -> / 2 < f_mw f < 2000.
Proof.
  intros HT HB. pose proof flt_pos as [F1 F2].
  pose proof (rabs_le _ _ (bal_x _ HB)) as HX. pose proof (rabs_le _ _ (bal_y _ HB)) as HY.
  assert (E : total (@c_x R) f * f_mw f = rsum (map (fun c => c_y c * p_mw (c_pr c)) (f_cs f))).
  { unfold total. rewrite <- rsum_scale_r. apply rsum_ext. intros c Hc. now apply bal_frac. }
  unfold real_types in HT. rewrite Forall_forall in HT.
  assert (L : total (@c_y R) f <= rsum (map (fun c => c_y c * p_mw (c_pr c)) (f_cs f)) <= total (@c_y R) f * 1000).
  { unfold total. rewrite <- rsum_scale_r. split; apply rsum_le; intros c Hc;
      destruct (bal_pos _ HB c Hc); specialize (HT c Hc); nra. }
  rewrite <- E in L. split; nra.
Qed.

(** The other modifications keep a consistent mixture consistent, and set what they
    say. *)
Theorem C109_keep : forall f, real_types f -> balanced f ->
  (forall m, balanced (set_mass f m) /\ f_mass (set_mass f m) = m /\ f_mw (set_mass f m) = f_mw f /\
             map c_x (f_cs (set_mass f m)) = map c_x (f_cs f)) /\
  (forall n, balanced (set_mole f n) /\ f_mole (set_mole f n) = n /\ f_mw (set_mole f n) = f_mw f /\
             map c_x (f_cs (set_mole f n)) = map c_x (f_cs f)) /\
  (forall t, balanced (set_temperature f t) /\ f_mass (set_temperature f t) = f_mass f /\
             f_t (set_temperature f t) = t /\ map c_x (f_cs (set_temperature f t)) = map c_x (f_cs f)) /\
  (forall p, balanced (set_pressure f p) /\ f_mass (set_pressure f p) = f_mass f /\
             f_p (set_pressure f p) = p /\ map c_x (f_cs (set_pressure f p)) = map c_x (f_cs f)) /\
  (forall w, balanced (set_flow f w) /\ f_mass (set_flow f w) = f_mass f /\
             f_w (set_flow f w) = w /\ map c_x (f_cs (set_flow f w)) = map c_x (f_cs f)).
Proof.
  intros f HT HB. pose proof (balanced_mw f HT HB) as HM. pose proof eps_lt_flt as FE.
  unfold real_types in HT. rewrite Forall_forall in HT.
  destruct HB as [B1 B2 B3 B4 B5 B6 B7 B8 B9].
  assert (DW : dlim (f_mw f) = f_mw f) by (apply dlim_id; lra).
  repeat split; try reflexivity; unfold total in *;
    try (unfold set_mass, set_mole, set_temperature, set_flow, set_pressure; rnum;
         cbn [f_cs f_mass f_mole f_mw f_w f_p f_t]; rewrite ?map_map; reflexivity || assumption);
    try (unfold set_mass, set_mole, set_temperature, set_flow; cbn [f_cs f_mass f_mole f_mw f_w]; rewrite ?DW;
         intros d Hd; apply in_map_iff in Hd; destruct Hd as [c [<- Hc]];
         cbn [cset_mass cset_mole cset_w cset_p cset_t c_mass c_mole c_w c_x c_y c_mw c_pr];
         specialize (B1 c Hc); specialize (B2 c Hc); specialize (B3 c Hc); specialize (B4 c Hc);
         specialize (B5 c Hc); specialize (B6 c Hc); specialize (HT c Hc); unfold c_mw; rnum;
         try reflexivity; try assumption; try tauto).
  all: try (unfold set_mass; cbn [f_mass f_mole f_mw]; rewrite DW; rnum; try reflexivity; field; lra).
  all: try (field; lra).
  all: try (rewrite <- B6; field; lra).
  all: try (match goal with
       | H : In _ (f_cs (set_pressure _ _)) |- _ => destruct (B5 _ H); assumption
       | H : In _ (f_cs _) |- 0 <= _ =>
           unfold set_mass, set_mole, set_temperature, set_flow in H; cbn [f_cs] in H;
           apply in_map_iff in H; destruct H as [e [E He]]; rewrite <- E; destruct (B5 e He); assumption end).
  - match goal with |- c_x c * ?m / _ = _ =>
      apply (Rmult_eq_reg_r (p_mw (c_pr c))); [|lra];
      replace (c_x c * m / p_mw (c_pr c) * p_mw (c_pr c)) with (c_x c * m) by (field; lra);
      replace (c_y c * (m / f_mw f) * p_mw (c_pr c)) with (c_y c * p_mw (c_pr c) * (m / f_mw f)) by ring end.
    rewrite <- B6. field. lra.
  - match goal with |- c_y c * ?k * _ = _ =>
      replace (c_y c * k * p_mw (c_pr c)) with (c_y c * p_mw (c_pr c) * k) by ring end. rewrite <- B6. ring.
Qed.

(** updateMass makes the mixture that its constituents' masses say. *)
Theorem C109_update : forall f, real_types f ->
  (forall c, In c (f_cs f) -> 0 <= c_mass c /\ c_mass c = c_mole c * p_mw (c_pr c)) ->
  (forall c, In c (f_cs f) -> c_w c = 0) -> f_w f = 0 ->
  1000 * Reps <= total (@c_mass R) f ->
  balanced (update_mass f) /\ f_mass (update_mass f) = total (@c_mass R) f /\
  map c_mass (f_cs (update_mass f)) = map c_mass (f_cs f).
Proof.
  intros f HT HC HW HW0 HM. unfold real_types in HT. pose proof Reps_pos as EP.
  assert (HS := sum_over_weights (f_cs f) HT c_mass (fun c Hc => proj1 (HC c Hc))).
  unfold total in *. unfold update_mass. rewrite tsum_R. set (m := rsum (map c_mass (f_cs f))) in *.
  rewrite (dlim_id m) by lra.
  set (cs := map (fun c => cset_x (cset_y c (c_mass c /~ c_mw c)) (c_mass c /~ m)) (f_cs f)).
  assert (EY : rsum (map c_y cs) = rsum (map (fun c => c_mass c / c_mw c) (f_cs f))).
  { unfold cs. rewrite map_map. reflexivity. }
  assert (EM : rsum (map c_mass (f_cs f)) = m) by reflexivity.
  rewrite tsum_R, EY. set (moles := rsum (map (fun c => c_mass c / c_mw c) (f_cs f))) in *.
  rewrite (dlim_id moles) by lra.
  rewrite Forall_forall in HT. unfold cs.
  split; [|split; [reflexivity|cbn [f_cs]; rewrite !map_map; reflexivity]].
  assert (HMP : 0 < m) by lra. assert (HNP : 0 < moles) by lra.
  assert (EN : moles = rsum (map (fun c => c_mass c / c_mw c) (f_cs f))) by reflexivity.
  constructor; cbn [f_cs f_mass f_mole f_mw f_w]; rewrite ?map_map;
    try (intros d Hd; apply in_map_iff in Hd; destruct Hd as [c [<- Hc]];
         specialize (HC c Hc); specialize (HT c Hc); specialize (HW c Hc); destruct HC as [C1 C2];
         cbn [cset_x cset_y c_mass c_mole c_w c_x c_y c_pr]; unfold c_mw; cbn [cset_x cset_y c_mass c_pr]; rnum).
  - field. lra.
  - rewrite C2. field. lra.
  - exact C2.
  - rewrite HW, HW0. ring.
  - split; unfold Rdiv; repeat apply Rmult_le_pos; try lra; left; apply Rinv_0_lt_compat; lra.
  - field. lra.
  - rnum. field. lra.
  - unfold total. cbn [f_cs]. rewrite !map_map. cbn [cset_x cset_y c_x]. rnum. unfold Rdiv.
    rewrite (rsum_scale_r (/ m) c_mass), EM, Rinv_r by lra. replace (1 - 1) with 0 by lra.
    rewrite Rabs_R0. pose proof flt_pos; lra.
  - unfold total. cbn [f_cs]. rewrite !map_map. cbn [cset_x cset_y c_x c_y].
    rnum. unfold Rdiv at 1.
    rewrite (rsum_scale_r (/ moles) (fun c => c_mass c / c_mw c)), <- EN, Rinv_r by lra.
    replace (1 - 1) with 0 by lra. rewrite Rabs_R0. pose proof flt_pos; lra.
Qed.

(** A mixture set up with mass fractions adding up to one within FLT_EPSILON is
    consistent. *)
Theorem C109_init : forall types i f,
  Forall (fun q : nat * props R * R => 1 <= p_mw (snd (fst q)) <= 1000 /\ 0 <= snd q) types ->
  Rabs (1 - rsum (map snd types)) <= fltR ->
  initialize types i = Ok f ->
  balanced f /\ map c_x (f_cs f) = map snd types /\
  map (fun c => (c_type c, c_pr c)) (f_cs f) = map fst types /\
  f_t f = i_t i /\ f_p f = i_p i /\ f_w f = i_w i /\ f_mass f = i_mass i /\
  (forall c, In c (f_cs f) -> c_t c = i_t i /\ c_p c = c_y c * i_p i) /\
  f_h f = f_cp f * i_t i.
Proof.
  intros types i f HT HS H. unfold initialize in H.
  destruct (length types <? 1)%nat; [discriminate|].
  destruct ((i_t i <~ flt_eps) || (i_p i <~ flt_eps)); [discriminate|].
  rewrite check_spec in H. pose proof flt_pos as [F1 F2]. pose proof eps_lt_flt as FE.
  destruct (Rlt_dec (/ 10000) (Rabs (1 - rsum (map snd types)))); [lra|].
  destruct (Rlt_dec fltR (Rabs (1 - rsum (map snd types)))) as [L|_]; [lra|].
  set (cs := zip_with _ types (map snd types)) in H.
  assert (EC : cs = map (fun q : nat * props R * R =>
     mkconst (fst (fst q)) (snd (fst q)) (i_t i) (i_p i) (i_w i) (i_mass i)
             (i_mass i /~ p_mw (snd (fst q))) (snd q) (snd q)) types).
  { subst cs. unfold zip_with. clear. induction types as [|q l IH]; cbn in *; [reflexivity|]. now rewrite IH. }
  destruct (one_phase cs) as [ph|]; [|discriminate].
  rewrite EC, tsum_R, !map_map in H. clear EC cs.
  cbn [cset_mass cset_w cset_t cset_y c_y c_x c_p c_pr c_type c_t c_mw c_w] in H. unfold c_mw in H.
  cbn [cset_w cset_t cset_y c_pr c_y c_x c_p] in H.
  assert (HW : rsum (map snd types) / 1000 <=
               rsum (map (fun q : nat * props R * R => snd q /~ p_mw (snd (fst q))) types)).
  { rewrite Forall_forall in HT. unfold Rdiv at 1. rewrite <- (rsum_scale_r (/ 1000) snd).
    apply rsum_le. intros q Hq. destruct (HT q Hq). rnum. unfold Rdiv.
    apply Rmult_le_compat_l; [lra|]. apply Rinv_le_contravar; lra. }
  set (mpm := rsum (map (fun q : nat * props R * R => snd q /~ p_mw (snd (fst q))) types)) in *.
  apply rabs_le in HS as HS2. assert (HP : / 2000 < mpm) by lra.
  rewrite (dlim_id mpm) in H by lra. injection H as <-.
  assert (EM : rsum (map (fun q : nat * props R * R => snd q / p_mw (snd (fst q))) types) = mpm) by reflexivity.
  clearbody mpm. rewrite Forall_forall in HT.
  assert (HIn : forall (g : nat * props R * R -> const R) d, In d (map g types) ->
            exists q, In q types /\ d = g q).
  { intros g d Hd. apply in_map_iff in Hd. destruct Hd as [c [E Hc]]. exists c. split; [exact Hc|now symmetry]. }
  split; [|split; [|split; [|repeat (split; [reflexivity|]); split; [|reflexivity]]]];
    cbn [f_cs f_mass f_mole f_mw f_w].
  - constructor; cbn [f_cs f_mass f_mole f_mw f_w];
    try (intros d Hd; apply HIn in Hd; destruct Hd as [q [Hq ->]]; destruct (HT q Hq) as [W1 W2];
         cbn [cset_p cset_y cset_mass cset_w cset_t c_mass c_mole c_x c_y c_w c_pr]; unfold c_mw;
         cbn [cset_p cset_y cset_mass cset_w cset_t c_pr]; rnum).
    + reflexivity.
    + field. lra.
    + field. lra.
    + reflexivity.
    + split; [exact W2|]. unfold Rdiv. repeat apply Rmult_le_pos; try lra; left; apply Rinv_0_lt_compat; lra.
    + field. lra.
    + rnum. field. lra.
    + unfold total. cbn [f_cs]. rewrite map_map. exact HS.
    + unfold total. cbn [f_cs]. rewrite map_map. cbn [cset_p cset_y c_y]. rnum. unfold Rdiv at 1.
      rewrite (rsum_scale_r (/ mpm) (fun q : nat * props R * R => snd q / p_mw (snd (fst q)))), EM, Rinv_r by lra.
      replace (1 - 1) with 0 by lra. rewrite Rabs_R0. lra.
  - rewrite map_map. reflexivity.
  - rewrite map_map. cbn [cset_p cset_y c_type c_pr]. apply map_ext. intros [[a b] c]. reflexivity.
  - intros d Hd. apply HIn in Hd. destruct Hd as [q [Hq ->]]. split; reflexivity.
Qed.

(** A fluid type with constant properties, for examples. *)
Definition gasR (mw a b lo hi : R) : props R :=
  mkprops mw 0%nat a b lo hi (fun _ _ => 1) (fun _ _ => 1) (fun _ _ => 1) (fun _ _ => 1) (fun _ _ => 1) (fun _ _ => 1).

(** But fractions off by more than that are rescaled only in part: the mole fractions,
    the moles and the molecular weight come from the fractions as given. *)
Theorem C109_init_refuted : exists types i f,
  Forall (fun q : nat * props R * R => 1 <= p_mw (snd (fst q)) <= 1000 /\ 0 <= snd q) types /\
  initialize types i = Ok f /\ total (@c_x R) f = 1 /\ ~ balanced f /\
  exists c, f_cs f = [c] /\ c_mole c <> f_mole f.
Proof.
  exists [(0%nat, gasR 2 1000 (/ 10) 100 2000, 1 + / 20000)], (mkfluidin 300 100 0 1).
  pose proof flt_pos as [F1 F2]. pose proof eps_lt_flt as FE. pose proof Reps_pos as EP.
  assert (HC : check_fractions [1 + / 20000] = Some [1]).
  { rewrite check_spec. unfold rsum. cbn [fold_right map].
    replace (1 - (1 + / 20000 + 0)) with (- / 20000) by lra. rewrite Rabs_Ropp, Rabs_right by lra.
    destruct (Rlt_dec (/ 10000) (/ 20000)); [lra|]. destruct (Rlt_dec fltR (/ 20000)); [|lra].
    f_equal. f_equal. field. }
  unfold initialize. cbn [length Nat.ltb Nat.leb map snd fst i_t i_p i_w i_mass].
  rewrite HC, !flt_val. unfold zip_with. cbn [combine map fst snd].
  replace ((300 : R) <~ fltR) with false by (rnum; destruct (Rltb_spec 300 fltR); [lra|reflexivity]).
  replace ((100 : R) <~ fltR) with false by (rnum; destruct (Rltb_spec 100 fltR); [lra|reflexivity]).
  cbn [orb]. unfold one_phase. cbn [fold_left c_x].
  replace (neps <~ nabs (1 : R)) with true
    by (rnum; rewrite Rabs_R1; destruct (Rltb_spec Reps 1); [reflexivity|lra]).
  match goal with |- context [dlim (tsum (@c_y R) ?l)] =>
    assert (D : dlim (tsum (@c_y R) l) = (1 + / 20000) / 2);
      [assert (D : tsum (@c_y R) l = (1 + / 20000) / 2)
         by (rewrite tsum_R; unfold rsum; cbn; rnum; lra); rewrite D; apply dlim_id; lra|] end.
  rewrite D. clear D. cbn [map].
  eexists. split; [|split; [reflexivity|]].
  - constructor; [|constructor]. cbn. lra.
  - split; [unfold total, rsum; cbn; lra|].
    match goal with |- ~ balanced ?F /\ _ =>
      assert (HN : exists c, f_cs F = [c] /\ c_mole c = 1 / 2 /\ c_y c = 1 /\ f_mole F = (1 + / 20000) / 2);
      [eexists; split; [reflexivity|]; cbn; repeat split; lra|generalize dependent F] end.
    intros F [c [E [E2 [E3 E4]]]]. split.
    + intros [_ B _ _ _ _ _ _ _]. rewrite E in B. specialize (B c (or_introl eq_refl)).
      rewrite E2, E3, E4 in B. lra.
    + exists c. split; [exact E|]. rewrite E2, E4. lra.
Qed.

(** ** C110: temperature and specific enthalpy *)
Lemma range_id (lo x hi : R) : lo <= x <= hi -> limit_range lo x hi = x.
Proof.
  intro H. unfold limit_range, nmax, nmin. rnum.
  destruct (Rltb_spec hi x); [lra|]. destruct (Rltb_spec x lo); [lra|reflexivity].
Qed.
Lemma max_R (a b : R) : nmax a b = Rmax a b.
Proof. unfold nmax. rnum. unfold Rmax. destruct (Rltb_spec a b); destruct (Rle_dec a b); lra. Qed.
Lemma fitA_R f : fitA (f_cs f) = heat_a f.
Proof.
  unfold fitA, heat_a, total. rewrite xsum_R. apply rsum_ext. intros c _. unfold Rltb.
  now destruct (Rlt_dec Reps (Rabs (c_x c))).
Qed.
Lemma fitB_R f : fitB (f_cs f) = heat_b f.
Proof.
  unfold fitB, heat_b, total. rewrite xsum_R. apply rsum_ext. intros c _. unfold Rltb.
  now destruct (Rlt_dec Reps (Rabs (c_x c))).
Qed.
Lemma compute_h_R f t : in_range f t -> compute_h f t = (heat_a f + heat_b f * t) * t.
Proof.
  intro H. unfold compute_h. rewrite xsum_R. unfold heat_a, heat_b, total, in_range in *.
  rewrite Forall_forall in H. rnum. f_equal. rewrite <- rsum_scale_r, <- rsum_add. apply rsum_ext.
  intros c Hc. specialize (H c Hc). unfold Rltb.
  destruct (Rlt_dec Reps (Rabs (c_x c))) as [L|L]; [|lra].
  unfold cp. rewrite range_id by (now apply H). rnum. lra.
Qed.
Lemma compute_t_R f h : 0 <= heat_a f * heat_a f + 4 * heat_b f * h ->
  compute_temperature sqrt f h =
  (- heat_a f + sqrt (heat_a f * heat_a f + 4 * heat_b f * h)) / 2 / heat_b f.
Proof.
  intro H. unfold compute_temperature. rewrite fitA_R, fitB_R, max_R. rnum. unfold Rdec. cbn.
  rewrite Rmax_left by lra. unfold Rdiv. f_equal.
  replace (4 * 1) with 4 by lra. lra.
Qed.

(** In the range of the fits, and while the enthalpy rises with the temperature, the
    temperature computed from the enthalpy at [t] is [t]. *)
Theorem C110_temperature : forall f t, in_range f t -> heat_b f <> 0 ->
  0 <= heat_a f + 2 * heat_b f * t ->
  compute_temperature sqrt f (compute_h f t) = t.
Proof.
  intros f t HR HB HP. rewrite (compute_h_R f t HR). rewrite compute_t_R.
  - replace (heat_a f * heat_a f + 4 * heat_b f * ((heat_a f + heat_b f * t) * t))
      with ((heat_a f + 2 * heat_b f * t) * (heat_a f + 2 * heat_b f * t)) by ring.
    rewrite sqrt_square by exact HP. field. exact HB.
  - replace (heat_a f * heat_a f + 4 * heat_b f * ((heat_a f + heat_b f * t) * t))
      with ((heat_a f + 2 * heat_b f * t) * (heat_a f + 2 * heat_b f * t)) by ring.
    apply Rle_0_sqr.
Qed.
(** Rising enthalpies of what is there make the enthalpy of the mixture rise. *)
Theorem C110_rising : forall f t,
  (forall c, In c (f_cs f) -> 0 <= c_x c /\ 0 <= p_cpA (c_pr c) + 2 * p_cpB (c_pr c) * t) ->
  0 <= heat_a f + 2 * heat_b f * t.
Proof.
  intros f t H. unfold heat_a, heat_b, total. rewrite <- rsum_scale, <- rsum_scale_r, <- rsum_add.
  apply rsum_nonneg. intros c Hc. destruct (H c Hc) as [H1 H2].
  destruct (Rlt_dec Reps (Rabs (c_x c))); [|lra].
  replace (c_x c * p_cpA (c_pr c) + 2 * (c_x c * p_cpB (c_pr c)) * t)
    with (c_x c * (p_cpA (c_pr c) + 2 * p_cpB (c_pr c) * t)) by ring. now apply Rmult_le_pos.
Qed.
(** The enthalpy at the temperature computed from [h] is [h]. *)
Theorem C110_enthalpy : forall f h, heat_b f <> 0 ->
  0 <= heat_a f * heat_a f + 4 * heat_b f * h ->
  in_range f (compute_temperature sqrt f h) ->
  compute_h f (compute_temperature sqrt f h) = h.
Proof.
  intros f h HB HP HR. rewrite (compute_h_R _ _ HR), (compute_t_R _ _ HP).
  set (s := sqrt _). assert (S : s * s = heat_a f * heat_a f + 4 * heat_b f * h) by (now apply sqrt_sqrt).
  clearbody s. field_simplify; [|exact HB].
  replace (- heat_a f ^ 2 + s ^ 2) with (4 * heat_b f * h) by (cbn; lra). field. exact HB.
Qed.
(** What setTemperature keeps as the enthalpy is the one at that temperature, also of
    the mixture it leaves. *)
Theorem C110_set_temperature : forall f t, no_traces f ->
  f_h (set_temperature f t) = compute_h f t /\
  compute_h (set_temperature f t) t = compute_h f t /\
  f_cp (set_temperature f t) * t = f_h (set_temperature f t).
Proof.
  intros f t HN. unfold no_traces in HN. rewrite Forall_forall in HN. pose proof Reps_pos as EP.
  split; [|split; [|reflexivity]].
  - unfold set_temperature, compute_h, cs_cp. cbn [f_h]. rewrite ysum_R, xsum_R, map_map. rnum. f_equal.
    apply rsum_ext. intros c Hc. cbn [cset_p cset_t c_x c_y c_t c_pr]. unfold Rltb.
    destruct (HN c Hc) as [[E1 E2]|[E1 E2]].
    + rewrite E1, E2, Rabs_R0. destruct (Rlt_dec Reps 0); [lra|reflexivity].
    + destruct (Rlt_dec Reps (Rabs (c_y c))); [|lra]. destruct (Rlt_dec Reps (Rabs (c_x c))); [reflexivity|lra].
  - unfold compute_h. cbn [set_temperature f_cs]. rewrite !xsum_R, map_map. reflexivity.
Qed.

(** In binary64 the slopes of the fits of real gases can cancel: helium with 3 percent
    of nitrogen has no temperature. *)
Definition gasF (mw a b lo hi : float) : props float :=
  mkprops mw 0%nat a b lo hi (fun _ _ => 1%float) (fun _ _ => 1%float) (fun _ _ => 1%float)
          (fun _ _ => 1%float) (fun _ _ => 1%float) (fun _ _ => 1%float).
(** FluidProperties.cpp:541, 429, 397. *)
Definition heF := gasF (4.0026)%float (5193.2)%float (-0.0041)%float (50)%float (1500)%float.
Definition n2F := gasF (28.0134)%float (1.01354736e+3)%float (1.31741253e-1)%float (64)%float (2000)%float.
Definition co2F := gasF (44.0095)%float (6.94715529e+2)%float (5.22732574e-1)%float (100)%float (2000)%float.
Definition mixF (l : list (props float * float)) (t : float) : outcome (fluid float) :=
  initialize (map (fun q => (0%nat, fst q, snd q)) l) (mkfluidin t (100)%float (0)%float (1)%float).

Theorem C110_cancel_refuted : exists f,
  mixF [(heF, (0.9698176360452708)%float); (n2F, (0.030182287)%float)] (300)%float = Ok f /\
  (f_h f ==~ compute_h f (300)%float = true) /\ (n0 <~ f_h f = true) /\
  (let t := compute_temperature PrimFloat.sqrt f (f_h f) in (t ==~ t) = false).
Proof.
  match goal with |- exists f, ?l = _ /\ _ =>
    let F := eval vm_compute in l in
    match F with Ok ?F => exists F end end.
  split; [vm_compute; reflexivity|]. vm_compute. auto.
Qed.
(** Near the cancellation the temperature is wrong by a degree's hundredths. *)
Theorem C110_near_refuted : exists f,
  mixF [(heF, (0.969817712)%float); (n2F, (0.030182288)%float)] (300)%float = Ok f /\
  (f_h f ==~ compute_h f (300)%float = true) /\
  ((300.0005)%float <~ compute_temperature PrimFloat.sqrt f (f_h f)) = true.
Proof.
  match goal with |- exists f, ?l = _ /\ _ =>
    let F := eval vm_compute in l in
    match F with Ok ?F => exists F end end.
  split; [vm_compute; reflexivity|]. vm_compute. auto.
Qed.
(** Outside the range of the fits, where the specific heat is that of the end of the
    range, the temperature is wrong. *)
Theorem C110_range_refuted : exists f,
  mixF [(co2F, (1)%float)] (90)%float = Ok f /\ (f_h f ==~ compute_h f (90)%float = true) /\
  ((90.5)%float <~ compute_temperature PrimFloat.sqrt f (f_h f)) = true.
Proof.
  match goal with |- exists f, ?l = _ /\ _ =>
    let F := eval vm_compute in l in
    match F with Ok ?F => exists F end end.
  split; [vm_compute; reflexivity|]. vm_compute. auto.
Qed.

(** ** C111: mixing streams *)
Lemma eps2_val : (eps2 : R) = Reps * Reps.
Proof. reflexivity. Qed.
Lemma abs_eps2 (x : R) : (Rabs x < Reps * Reps) -> - (Reps * Reps) < x < Reps * Reps.
Proof. unfold Rabs. destruct (Rcase_abs x); lra. Qed.
Lemma mono_add_w (c d : const R) flow : ((flow = 0 /\ c_w d = 0) \/ Reps * Reps <= flow) ->
  c_w (mono_add c d flow) = c_w c + flow.
Proof.
  intro H. unfold mono_add. rewrite eps2_val. rnum. pose proof Reps_pos as EP.
  assert (E : (if Rltb (Rabs flow) (Reps * Reps) then c_w d else flow) = flow).
  { destruct (Rltb_spec (Rabs flow) (Reps * Reps)) as [L|L]; [|reflexivity].
    apply abs_eps2 in L. destruct H as [[-> ->]|H]; [reflexivity|lra]. }
  rewrite E. destruct (Rltb (Reps * Reps) (Rabs (c_w c + flow))); reflexivity.
Qed.
Lemma mono_add_keep (c d : const R) flow :
  c_pr (mono_add c d flow) = c_pr c /\ c_type (mono_add c d flow) = c_type c /\
  c_mass (mono_add c d flow) = c_mass c /\ c_mole (mono_add c d flow) = c_mole c.
Proof. unfold mono_add. match goal with |- context [if ?b then _ else _] => destruct b end; cbn; auto. Qed.

Lemma zip_map {A B C D} (g : A -> B -> C) (h : C -> D) (k : A -> B -> D) l m :
  (forall a b, In a l -> In b m -> h (g a b) = k a b) -> map h (zip_with g l m) = zip_with k l m.
Proof.
  revert m. induction l as [|a l IH]; intros [|b m] H; try reflexivity.
  unfold zip_with in *. cbn [combine map fst snd]. f_equal; [apply H; now left|].
  apply IH. intros x y Hx Hy. apply H; now right.
Qed.
Lemma padd_zip {A B} (g : A -> R) (h : B -> R) l m :
  padd (map g l) (map h m) = zip_with (fun a b => g a + h b) l m.
Proof.
  unfold padd, zip_with. revert m. induction l as [|a l IH]; intros [|b m]; try reflexivity.
  cbn [map combine fst snd]. f_equal. apply IH.
Qed.
Lemma rsum_zip {A B} (g : A -> R) (h : B -> R) l m : length l = length m ->
  rsum (zip_with (fun a b => g a + h b) l m) = rsum (map g l) + rsum (map h m).
Proof.
  unfold zip_with. revert m. induction l as [|a l IH]; intros [|b m] H; try discriminate; cbn [map combine rsum fold_right]; [lra|].
  cbn [fst snd]. unfold rsum in *. rewrite IH by (cbn in H; lia). lra.
Qed.
Lemma same_types_length (f g : fluid R) : same_types f g = true ->
  length (f_cs f) = length (f_cs g) /\ map c_type (f_cs f) = map c_type (f_cs g).
Proof.
  unfold same_types. destruct (list_eq_dec _ _ _) as [E|]; [|discriminate]. intros _. split; [|exact E].
  apply (f_equal (@length nat)) in E. now rewrite !map_length in E.
Qed.

(** Adding [flow] of a source to a stream: the flow, the flow of each species and the
    flow of enthalpy are the sums, and the result is a stream, of the temperature of its
    enthalpy. *)
Theorem C111_add : forall f src flow, same_types f src = true -> real_types f ->
  stream f -> source src flow -> Reps <= flow ->
  let f' := fst (add_state sqrt f src flow) in
  snd (add_state sqrt f src flow) = false /\ stream f' /\
  f_w f' = f_w f + flow /\
  species_flow f' = padd (species_flow f) (species_of src flow) /\
  f_h f' * f_w f' = f_h f * f_w f + f_h src * flow /\
  f_t f' = compute_temperature sqrt f' (f_h f') /\
  (forall c, In c (f_cs f') -> c_t c = f_t f' /\ 0 <= c_y c /\ c_x c * f_mw f' = c_y c * p_mw (c_pr c)) /\
  total (@c_y R) f' = 1 /\
  map c_pr (f_cs f') = map c_pr (f_cs f) /\ map c_type (f_cs f') = map c_type (f_cs f) /\
  map c_mass (f_cs f') = map c_mass (f_cs f) /\ f_mass f' = f_mass f /\ f_mole f' = f_mole f.
Proof.
  intros f src flow HT HR HF HS HW. cbn zeta. pose proof Reps_pos as EP. pose proof Reps_small as ES.
  pose proof flt_pos as [F1 F2]. destruct (same_types_length f src HT) as [HL _].
  destruct HF as [W0 FW FX FT]. destruct HS as [SX SC].
  assert (HE : add_state sqrt f src flow = add_state sqrt f src flow) by reflexivity.
  unfold add_state in HE at 2. rewrite HT in HE. cbn [negb] in HE.
  replace (nabs flow <~ neps) with false in HE
    by (rnum; rewrite Rabs_right by lra; destruct (Rltb_spec flow Reps); [lra|reflexivity]).
  cbn zeta in HE.
  replace (nabs (f_w f +~ flow) <~ neps) with false in HE
    by (rnum; rewrite Rabs_right by lra; destruct (Rltb_spec (f_w f + flow) Reps); [lra|reflexivity]).
  set (cs0 := zip_with (fun c d => mono_add c d (flow *~ c_x d)) (f_cs f) (f_cs src)) in HE.
  set (w := f_w f +~ flow) in HE. assert (EW : w = f_w f + flow) by reflexivity. clearbody w.
  assert (C0w : map c_w cs0 = padd (species_flow f) (species_of src flow)).
  { unfold species_flow, species_of. rewrite padd_zip. apply zip_map. intros a b Ha Hb. apply mono_add_w. rnum.
    destruct (SC b Hb) as [P [[E1 E2]|E]]; [left; rewrite E1, E2; lra|right; exact E]. }
  assert (C0p : map c_pr cs0 = map c_pr (f_cs f))
    by (apply zip_map_fst; [exact HL|intros; apply mono_add_keep]).
  assert (C0t : map c_type cs0 = map c_type (f_cs f))
    by (apply zip_map_fst; [exact HL|intros; apply mono_add_keep]).
  assert (C0m : map c_mass cs0 = map c_mass (f_cs f))
    by (apply zip_map_fst; [exact HL|intros; apply mono_add_keep]).
  assert (C0 : forall c, In c cs0 -> 0 <= c_w c /\ 1 <= p_mw (c_pr c) <= 1000).
  { intros c Hc. apply zip_in in Hc. destruct Hc as [a [b [Ha [Hb ->]]]].
    destruct (SC b Hb) as [P Q]. split.
    - rewrite mono_add_w; rnum; [|destruct Q as [[E1 E2]|E]; [left; rewrite E1, E2; lra|right; exact E]].
      rewrite (FW a Ha). specialize (FX a Ha). nra.
    - destruct (mono_add_keep a b (flow *~ c_x b)) as [-> _]. unfold real_types in HR.
      rewrite Forall_forall in HR. exact (HR a Ha). }
  assert (C0s : rsum (map c_w cs0) = f_w f * total (@c_x R) f + flow * total (@c_x R) src).
  { rewrite C0w. unfold species_flow, species_of. rewrite padd_zip, rsum_zip by exact HL.
    rewrite (rsum_scale flow c_x). unfold total. f_equal. rewrite <- rsum_scale. apply rsum_ext.
    intros c Hc. rewrite (FW c Hc). lra. }
  clearbody cs0.
  assert (HSX : Rabs (w - rsum (map c_w cs0)) <= fltR * w).
  { rewrite C0s. apply rabs_le in SX. rewrite EW. apply Rabs_le. destruct FT as [FT|FT].
    - rewrite FT. nra.
    - apply rabs_le in FT. nra. }
  apply rabs_le in HSX.
  assert (HMW : rsum (map c_w cs0) / 1000 <= rsum (map (fun c => c_w c / c_mw c) cs0)).
  { apply sum_over_weights; [apply Forall_forall; intros c Hc; exact (proj2 (C0 c Hc))|intros c Hc; apply C0, Hc]. }
  rewrite !tsum_R, !map_map in HE. cbn [cset_x cset_y c_y c_x c_w c_mw c_pr] in HE.
  set (mf := rsum (map (fun c => c_w c /~ c_mw c) cs0)) in HE.
  assert (MF : rsum (map (fun c => c_w c / c_mw c) cs0) = mf) by reflexivity. rewrite MF in HMW.
  assert (HE2 : Reps * Reps <= mf) by nra.
  rewrite (dlim2_id mf) in HE by exact HE2.
  set (mpm := rsum (map (fun c => c_w c /~ w /~ c_mw (cset_x c (c_w c /~ w))) cs0)) in HE.
  assert (MP : mpm = mf / w).
  { rewrite <- MF. unfold mpm, Rdiv. rewrite <- (rsum_scale_r (/ w)). apply rsum_ext. intros c Hc.
    destruct (C0 c Hc) as [_ M]. unfold c_mw. cbn [cset_x c_pr]. rnum. field. split; lra. }
  clearbody mpm mf.
  assert (HWP : 0 < w) by lra.
  assert (HMP : Reps * Reps <= mpm).
  { rewrite MP. apply (Rmult_le_reg_r w); [lra|]. replace (mf / w * w) with mf by (field; lra).
    assert (Reps * Reps <= / 2000) by nra. assert (w * / 2000 <= mf) by nra. nra. }
  rewrite (dlim2_id mpm) in HE by exact HMP.
  rewrite HE. clear HE. cbn [fst snd]. split; [reflexivity|].
  assert (HM0 : 0 < mpm) by nra. assert (HF0 : 0 < mf) by nra.
  split; [|split; [exact EW|]].
  - constructor; cbn [f_w f_cs].
    + lra.
    + intros d Hd. apply in_map_iff in Hd. destruct Hd as [c [<- Hc]].
      cbn [cset_t cset_y cset_x c_w c_x]. rnum. field. lra.
    + intros d Hd. apply in_map_iff in Hd. destruct Hd as [c [<- Hc]].
      cbn [cset_t cset_y cset_x c_w c_x]. rnum. destruct (C0 c Hc). unfold Rdiv.
      apply Rmult_le_pos; [lra|]. left. apply Rinv_0_lt_compat. lra.
    + right. unfold total. cbn [f_cs]. rewrite map_map. cbn [cset_t cset_y cset_x c_x]. rnum.
      unfold Rdiv. rewrite (rsum_scale_r (/ w) c_w).
      replace (1 - rsum (map c_w cs0) * / w) with ((w - rsum (map c_w cs0)) * / w) by (field; lra).
      rewrite Rabs_mult. rewrite (Rabs_right (/ w)) by (left; apply Rinv_0_lt_compat; lra).
      apply (Rmult_le_reg_r w); [lra|]. rewrite Rmult_assoc, Rinv_l by lra. rewrite Rmult_1_r. now apply Rabs_le.
  - split; [unfold species_flow at 1; cbn [f_cs]; rewrite map_map; exact C0w|].
    split; [cbn [f_h f_w]; rnum; field; lra|].
    split.
    { unfold compute_temperature, fitA, fitB. cbn [f_t f_cs f_h with_cs]. rewrite !xsum_R, !map_map. reflexivity. }
    split; [|split; [|split; [|split; [|split; [|split; reflexivity]]]]]; cbn [f_cs f_t f_mw].
    + intros d Hd. apply in_map_iff in Hd. destruct Hd as [c [<- Hc]].
      cbn [cset_t cset_y cset_x c_t c_x c_y c_pr]. unfold c_mw. cbn [cset_x c_pr]. rnum.
      destruct (C0 c Hc) as [P M]. split; [reflexivity|]. split.
      * unfold Rdiv. repeat apply Rmult_le_pos; try lra; left; apply Rinv_0_lt_compat; lra.
      * rewrite MP. field. repeat split; lra.
    + unfold total. cbn [f_cs]. rewrite map_map. cbn [cset_t cset_y cset_x c_y]. rnum.
      rewrite (rsum_ext _ (fun c => c_w c / c_mw c * (/ w * / mpm))).
      * rewrite (rsum_scale_r (/ w * / mpm) (fun c => c_w c / c_mw c)), MF, MP. field. lra.
      * intros c Hc. destruct (C0 c Hc) as [_ M]. unfold c_mw. cbn [cset_x c_pr]. field. repeat split; lra.
    + rewrite map_map. exact C0p.
    + rewrite map_map. exact C0t.
    + rewrite map_map. exact C0m.
Qed.

(** The energy of the result at its own temperature is that of what was mixed. *)
Theorem C111_energy : forall f src flow, same_types f src = true -> real_types f ->
  stream f -> source src flow -> Reps <= flow ->
  let f' := fst (add_state sqrt f src flow) in
  heat_b f' <> 0 -> 0 <= heat_a f' * heat_a f' + 4 * heat_b f' * f_h f' -> in_range f' (f_t f') ->
  compute_h f' (f_t f') * f_w f' = f_h f * f_w f + f_h src * flow.
Proof.
  intros f src flow HT HR HF HS HW f' HB HD HI.
  destruct (C111_add f src flow HT HR HF HS HW) as [_ [_ [_ [_ [E [ET _]]]]]]. fold f' in E, ET.
  rewrite ET in HI |- *. rewrite C110_enthalpy by assumption. exact E.
Qed.
(** With no flow given, the source's own flow is used; that includes a flow given that
    is less than DBL_EPSILON. *)
Theorem C111_own_flow : forall f src flow, same_types f src = true -> Rabs flow < Reps ->
  add_state sqrt f src flow = add_state sqrt f src 0 /\
  (Reps <= Rabs (f_w src) -> add_state sqrt f src flow = add_state sqrt f src (f_w src)).
Proof.
  intros f src flow HT HF. unfold add_state. rewrite HT. cbn [negb]. pose proof Reps_pos as EP.
  assert (A : (nabs flow <~ neps) = true) by (rnum; destruct (Rltb_spec (Rabs flow) Reps); [reflexivity|lra]).
  assert (B : (nabs (0 : R) <~ neps) = true)
    by (rnum; rewrite Rabs_R0; destruct (Rltb_spec 0 Reps); [reflexivity|lra]).
  rewrite A, B. split; [reflexivity|]. intro H.
  assert (D : (nabs (f_w src) <~ neps) = false) by (rnum; destruct (Rltb_spec (Rabs (f_w src)) Reps); [lra|reflexivity]).
  rewrite D. reflexivity.
Qed.
Definition flowF (l : list (props float * float)) (t w : float) : outcome (fluid float) :=
  initialize (map (fun q => (0%nat, fst q, snd q)) l) (mkfluidin t (100)%float w (1)%float).
(** So a trickle of a large stream is taken for all of it. *)
Theorem C111_trickle_refuted : exists f src, flowF [(co2F, (1)%float)] (300)%float (1)%float = Ok f /\
  flowF [(co2F, (1)%float)] (300)%float (5)%float = Ok src /\
  (f_w (fst (add_state PrimFloat.sqrt f src (0x1p-53)%float)) ==~ (6)%float) = true /\
  snd (add_state PrimFloat.sqrt f src (0x1p-53)%float) = false.
Proof.
  match goal with |- exists f src, ?l = _ /\ ?m = _ /\ _ =>
    let F := eval vm_compute in l in let G := eval vm_compute in m in
    match F with Ok ?F => match G with Ok ?G => exists F, G end end end.
  split; [vm_compute; reflexivity|]. split; [vm_compute; reflexivity|]. vm_compute. auto.
Qed.
(** When the flows cancel an exception is thrown, with the total changed but not the
    constituents. *)
Theorem C111_throw_refuted : exists f, flowF [(co2F, (1)%float)] (300)%float (1)%float = Ok f /\
  let r := add_state PrimFloat.sqrt f f (-1)%float in
  snd r = true /\ (f_w (fst r) ==~ n0) = true /\ f_w (fst r) <> f_w f /\
  map c_w (f_cs (fst r)) = map c_w (f_cs f) /\ existsb (fun c => n0 <~ c_w c) (f_cs (fst r)) = true.
Proof.
  match goal with |- exists f, ?l = _ /\ _ =>
    let F := eval vm_compute in l in
    match F with Ok ?F => exists F end end.
  split; [vm_compute; reflexivity|]. vm_compute. split; [reflexivity|]. split; [reflexivity|].
  split; [|split; reflexivity]. intro H. apply (f_equal (fun x => PrimFloat.ltb x 0.5%float)) in H.
  vm_compute in H. discriminate H.
Qed.

(** ** C112: mixing masses *)
Lemma normalize_spec fr : normalize_array fr =
  (let z := map (fun x => if Rlt_dec x (Reps * Reps) then 0 else x) fr in
   if Rlt_dec fltR (Rabs (rsum z - 1))
   then (if Rlt_dec 0 (rsum z) then map (fun x => x / rsum z) z else z, true) else (z, false)).
Proof.
  unfold normalize_array. rewrite flt_val, eps2_val. rnum.
  rewrite (map_ext _ (fun x => if Rlt_dec x (Reps * Reps) then 0 else x))
    by (intro x; unfold Rltb; destruct (Rlt_dec x (Reps * Reps)); reflexivity).
  set (z := map _ fr). pose proof (fold_nadd_R z) as E. cbv [nadd n0 RNum] in E. rewrite E. clear E.
  unfold Rltb. destruct (Rlt_dec fltR (Rabs (rsum z - 1))); [|reflexivity].
  destruct (Rlt_dec 0 (rsum z)); reflexivity.
Qed.
(** normalize leaves no negative fraction; if anything is left, the fractions add up to
    one; and fractions that were fine are left alone. *)
Theorem C112_normalize : forall fr,
  let fr' := fst (normalize_array fr) in
  length fr' = length fr /\ Forall (fun x => 0 <= x) fr' /\
  (0 < rsum fr' -> Rabs (1 - rsum fr') <= fltR) /\
  (Forall (fun x => x = 0 \/ Reps * Reps <= x) fr -> Rabs (rsum fr - 1) <= fltR ->
     normalize_array fr = (fr, false)).
Proof.
  intro fr. cbn zeta. rewrite normalize_spec. pose proof Reps_pos as EP. pose proof flt_pos as [F1 F2].
  set (z := map (fun x => if Rlt_dec x (Reps * Reps) then 0 else x) fr). cbn zeta.
  assert (HZ : Forall (fun x => 0 <= x) z).
  { apply Forall_forall. intros y Hy. apply in_map_iff in Hy. destruct Hy as [x [<- _]].
    destruct (Rlt_dec x (Reps * Reps)); nra. }
  assert (HL : length z = length fr) by apply map_length.
  assert (ES : Rabs (1 - rsum z) = Rabs (rsum z - 1)).
  { rewrite <- Rabs_Ropp. f_equal. lra. }
  assert (HK : Forall (fun x => x = 0 \/ Reps * Reps <= x) fr -> z = fr).
  { intro H. unfold z. rewrite <- (map_id fr) at 2. apply map_ext_in. intros x Hx.
    rewrite Forall_forall in H. destruct (Rlt_dec x (Reps * Reps)); [|reflexivity].
    destruct (H x Hx); [now symmetry|lra]. }
  destruct (Rlt_dec fltR (Rabs (rsum z - 1))) as [L|L].
  - destruct (Rlt_dec 0 (rsum z)) as [P|P]; cbn [fst].
    + split; [rewrite map_length; exact HL|]. split; [|split].
      * apply Forall_forall. intros y Hy. apply in_map_iff in Hy. destruct Hy as [x [<- Hx]].
        rewrite Forall_forall in HZ. specialize (HZ x Hx). unfold Rdiv. apply Rmult_le_pos; [exact HZ|].
        left. now apply Rinv_0_lt_compat.
      * intros _. unfold Rdiv. rewrite (rsum_scale_r (/ rsum z) (fun x => x)), map_id, Rinv_r by lra.
        replace (1 - 1) with 0 by lra. rewrite Rabs_R0. lra.
      * intros H1 H2. rewrite (HK H1) in L. lra.
    + split; [exact HL|]. split; [exact HZ|]. split; [contradiction|].
      intros H1 H2. rewrite (HK H1) in L. lra.
  - cbn [fst]. split; [exact HL|]. split; [exact HZ|]. split.
    + intros _. rewrite ES. lra.
    + intros H1 H2. now rewrite (HK H1).
Qed.

(** Mixing two masses conserves the mass of each species. *)
Theorem C112_mix : forall out outm inn inm, real_types out ->
  length (f_cs out) = length (f_cs inn) ->
  Rabs (1 - total (@c_x R) out) <= fltR -> Rabs (1 - total (@c_x R) inn) <= fltR ->
  (forall c, In c (f_cs out) -> 0 <= c_x c) -> (forall c, In c (f_cs inn) -> 0 <= c_x c) ->
  0 <= outm -> 0 <= inm -> Reps <= outm + inm ->
  Forall (fun s => s = 0 \/ Reps * Reps * (outm + inm) <= s)
         (padd (species_of out outm) (species_of inn inm)) ->
  exists f', mix_masses out outm inn inm = Ok (f', false) /\ balanced f' /\
    f_mass f' = outm + inm /\ map c_mass (f_cs f') = padd (species_of out outm) (species_of inn inm).
Proof.
  intros out outm inn inm HT HL HX1 HX2 HP1 HP2 HO HI HM HS.
  pose proof Reps_pos as EP. pose proof flt_pos as [F1 F2].
  assert (HM0 : 0 < outm + inm) by lra.
  unfold mix_masses. replace (inm +~ outm <~ neps) with false
    by (rnum; destruct (Rltb_spec (inm + outm) Reps); [lra|reflexivity]).
  set (fr := zip_with _ (f_cs out) (f_cs inn)).
  assert (EFR : fr = map (fun s => s / (outm + inm)) (padd (species_of out outm) (species_of inn inm))).
  { unfold fr, species_of. rewrite padd_zip. symmetry. apply zip_map. intros a b _ _. rnum. field. lra. }
  assert (EL : length fr = length (f_cs out)) by (apply zip_length; exact HL).
  assert (ESUM : rsum (padd (species_of out outm) (species_of inn inm)) =
                 outm * total (@c_x R) out + inm * total (@c_x R) inn).
  { unfold species_of. rewrite padd_zip, rsum_zip by exact HL. unfold total.
    now rewrite (rsum_scale outm c_x), (rsum_scale inm c_x). }
  assert (HSUM : Rabs (rsum fr - 1) <= fltR).
  { rewrite EFR. unfold Rdiv. rewrite (rsum_scale_r (/ (outm + inm)) (fun x => x)), map_id, ESUM.
    apply rabs_le in HX1, HX2. apply Rabs_le.
    assert (K : forall x, x * / (outm + inm) - 1 = (x - (outm + inm)) * / (outm + inm)) by (intro; field; lra).
    rewrite K. assert (IP : 0 < / (outm + inm)) by now apply Rinv_0_lt_compat.
    assert (Q : forall y, - fltR * (outm + inm) <= y <= fltR * (outm + inm) -> - fltR <= y * / (outm + inm) <= fltR).
    { intros y [Y1 Y2]. split; apply (Rmult_le_reg_r (outm + inm)); try lra;
        rewrite Rmult_assoc, Rinv_l by lra; lra. }
    apply Q. split; nra. }
  destruct (C112_normalize fr) as [_ [_ [_ HN]]]. rewrite HN.
  - destruct (C109_mass_fractions out (inm + outm) fr HT) as [_ H].
    + lia.
    + rewrite firstn_all2 by lia. apply Forall_forall. rewrite EFR. intros y Hy.
      apply in_map_iff in Hy. destruct Hy as [s [<- Hs]]. unfold Rdiv. apply Rmult_le_pos.
      * rewrite Forall_forall in HS. destruct (HS s Hs) as [->|]; [lra|]. assert (0 < Reps * Reps) by nra. nra.
      * left. now apply Rinv_0_lt_compat.
    + rewrite firstn_all2 in H by lia.
      assert (E : Rabs (1 - rsum fr) <= fltR) by (rewrite <- Rabs_Ropp; replace (- (1 - rsum fr)) with (rsum fr - 1) by lra; exact HSUM).
      destruct H as [f' [EQ [B [M [P [W X]]]]]]; [lra|].
      destruct (Rlt_dec fltR (Rabs (1 - rsum fr))); [lra|].
      exists f'. change (inm +~ outm) with (inm + outm). rewrite EQ.
      split; [reflexivity|]. split; [exact B|]. split; [lra|].
      transitivity (map (fun x => x * (outm + inm)) (map c_x (f_cs f'))).
      * rewrite map_map. apply map_ext_in. intros c Hc. rewrite (bal_mass _ B c Hc), M. lra.
      * rewrite X, EFR, map_map. rewrite <- (map_id (padd _ _)) at 2. apply map_ext. intro s. field. lra.
  - apply Forall_forall. rewrite EFR. intros y Hy. apply in_map_iff in Hy. destruct Hy as [s [<- Hs]].
    rewrite Forall_forall in HS. destruct (HS s Hs) as [->|H]; [left; lra|right].
    apply (Rmult_le_reg_r (outm + inm)); [lra|]. replace (s / (outm + inm) * (outm + inm)) with s by (field; lra). exact H.
  - exact HSUM.
Qed.

(** ** The hypotheses can be met *)
Definition heR := gasR 4 5000 (/ 10) 50 1500.
Definition h2R := gasR 2 8000 20 14 2000.
(** Eight kilograms of half of each. *)
Definition exR : fluid R :=
  mkfluid 300 100 1 8 3 (Some 0%nat) (8 / 3) 1 1 1 1 1 1 1
    [mkconst 0 heR 300 (100 / 3) (1 / 2) 4 1 (1 / 2) (1 / 3);
     mkconst 1 h2R 300 (200 / 3) (1 / 2) 4 2 (1 / 2) (2 / 3)].
Example exR_types : real_types exR.
Proof. unfold real_types. repeat constructor; cbn; lra. Qed.
Example exR_balanced : balanced exR.
Proof.
  constructor; unfold total, rsum; cbn; try (intros c [<-|[<-|[]]]; cbn); try lra;
  match goal with |- Rabs (1 - ?s) <= _ => replace (1 - s) with 0 by lra end; rewrite Rabs_R0; apply Rlt_le, flt_pos.
Qed.
Lemma half_big : Reps < Rabs (1 / 2).
Proof. rewrite Rabs_right by lra. pose proof eps_lt_flt. lra. Qed.
Example exR_heat : in_range exR 300 /\ heat_b exR <> 0 /\ 0 <= heat_a exR + 2 * heat_b exR * 300 /\ no_traces exR.
Proof.
  pose proof half_big as H. pose proof eps_lt_flt as E.
  unfold in_range, heat_a, heat_b, no_traces, total, rsum. cbn.
  destruct (Rlt_dec Reps (Rabs (1 / 2))); [|contradiction].
  split; [repeat constructor; cbn; lra|]. split; [lra|]. split; [lra|].
  repeat (apply Forall_cons || apply Forall_nil); cbn; right; (split; [exact H|]); rewrite Rabs_right by lra; lra.
Qed.
Example exR_inverse : compute_temperature sqrt exR (compute_h exR 300) = 300.
Proof. destruct exR_heat as [A [B [C _]]]. now apply C110_temperature. Qed.
Example exR_stream : stream exR /\ source exR 1 /\ same_types exR exR = true.
Proof.
  destruct exR_balanced as [_ _ _ B4 B5 _ _ B8 _]. pose proof Reps_pos. pose proof eps_lt_flt.
  split; [|split; [|reflexivity]].
  - constructor; [cbn; lra|exact B4|intros c Hc; apply B5, Hc|right; exact B8].
  - constructor; [exact B8|]. cbn. intros c [<-|[<-|[]]]; cbn; split; try lra; right; nra.
Qed.
Example exR_add : f_w (fst (add_state sqrt exR exR 1)) = 2.
Proof.
  destruct exR_stream as [A [B C]]. pose proof eps_lt_flt as E.
  destruct (C111_add exR exR 1 C exR_types A B ltac:(lra)) as [_ [_ [H _]]]. rewrite H. cbn. lra.
Qed.
Example exR_mix : exists f', mix_masses exR 8 exR 2 = Ok (f', false) /\ map c_mass (f_cs f') = [5; 5].
Proof.
  destruct exR_balanced as [_ _ _ _ B5 _ _ B8 _]. pose proof Reps_pos as EP. pose proof eps_lt_flt as E.
  destruct (C112_mix exR 8 exR 2) as [f' [H1 [_ [_ H2]]]]; try assumption; try lra; try reflexivity.
  - exact exR_types.
  - intros c Hc. apply B5, Hc.
  - intros c Hc. apply B5, Hc.
  - unfold padd, species_of. cbn. repeat (apply Forall_cons || apply Forall_nil); right; nra.
  - exists f'. split; [exact H1|]. rewrite H2. unfold padd, species_of. cbn. repeat (f_equal; try lra).
Qed.
Example exR_update : exists f, real_types f /\
  (forall c, In c (f_cs f) -> 0 <= c_mass c /\ c_mass c = c_mole c * p_mw (c_pr c)) /\
  (forall c, In c (f_cs f) -> c_w c = 0) /\ f_w f = 0 /\ 1000 * Reps <= total (@c_mass R) f.
Proof.
  exists (set_flow exR 0). pose proof eps_lt_flt. split; [unfold real_types; repeat constructor; cbn; lra|].
  unfold total, rsum. cbn. split; [intros c [<-|[<-|[]]]; cbn; lra|].
  split; [intros c [<-|[<-|[]]]; cbn; lra|]. lra.
Qed.
Example exR_init : exists f, initialize [(0%nat, heR, 1)] (mkfluidin 300 100 0 1) = Ok f /\
  Forall (fun q : nat * props R * R => 1 <= p_mw (snd (fst q)) <= 1000 /\ 0 <= snd q) [(0%nat, heR, 1)] /\
  Rabs (1 - rsum (map snd [(0%nat, heR, 1)])) <= fltR.
Proof.
  pose proof flt_pos as [F1 F2]. pose proof eps_lt_flt as FE.
  assert (HS : Rabs (1 - rsum [1]) = 0) by (unfold rsum; cbn [fold_right]; replace (1 - (1 + 0)) with 0 by lra; apply Rabs_R0).
  unfold initialize. cbn [length Nat.ltb Nat.leb map snd fst i_t i_p i_w i_mass].
  rewrite check_spec, !flt_val, HS.
  destruct (Rlt_dec (/ 10000) 0); [lra|]. destruct (Rlt_dec fltR 0); [lra|].
  unfold zip_with. cbn [combine map fst snd].
  replace ((300 : R) <~ fltR) with false by (rnum; destruct (Rltb_spec 300 fltR); [lra|reflexivity]).
  replace ((100 : R) <~ fltR) with false by (rnum; destruct (Rltb_spec 100 fltR); [lra|reflexivity]).
  cbn [orb]. unfold one_phase. cbn [fold_left c_x].
  replace (neps <~ nabs (1 : R)) with true
    by (rnum; rewrite Rabs_R1; destruct (Rltb_spec Reps 1); [reflexivity|lra]).
  eexists. split; [reflexivity|]. split; [|lra]. repeat constructor; cbn; lra.
Qed.

Print Assumptions C109_mass_fractions.
Print Assumptions C109_mole_fractions.
Print Assumptions C109_keep.
Print Assumptions C109_update.
Print Assumptions C109_init.
Print Assumptions C109_init_refuted.
Print Assumptions C110_temperature.
Print Assumptions C110_rising.
Print Assumptions C110_enthalpy.
Print Assumptions C110_set_temperature.
Print Assumptions C110_cancel_refuted.
Print Assumptions C110_near_refuted.
Print Assumptions C110_range_refuted.
Print Assumptions C111_add.
Print Assumptions C111_energy.
Print Assumptions C111_own_flow.
Print Assumptions C111_trickle_refuted.
Print Assumptions C111_throw_refuted.
Print Assumptions C112_normalize.
Print Assumptions C112_mix.
