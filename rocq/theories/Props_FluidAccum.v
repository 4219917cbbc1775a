(** C198, C199: the chambers of an accumulator and its conductivity. *)
From Coq Require Import Floats.
From Coq Require Import Reals Lra Lia List Arith Bool ZArith.
From Verif Require Import Num Ord MathUtil Props_Math Spec_Valve Props_Valve Props_Thermal FluidFlow Props_FluidFlow FluidSorb Props_FluidSorb Props_FluidSource Props_FluidBed Props_FluidMix Props_FluidTank FluidAccum.
Import ListNotations.
Local Open Scope R_scope.

Lemma hundredR : (hundred : R) = 100. Proof. unfold hundred. rnum. unfold Rdec. cbn. lra. Qed.
Lemma twoR : (ndec 2 0 : R) = 2. Proof. rnum. unfold Rdec. cbn. lra. Qed.
Lemma fiftyR : (fifty : R) = 50. Proof. unfold fifty. rewrite hundredR, twoR. rnum. lra. Qed.
Lemma limit_in lo x hi : lo <= hi -> lo <= limit_range lo x hi <= hi.
Proof. intro H. rewrite limit_within by exact H. unfold within. mm. Qed.
Lemma limit_id lo x hi : lo <= x <= hi -> limit_range lo x hi = x.
Proof. intro H. rewrite limit_within by lra. unfold within. mm. Qed.
Lemma ltT (a b : R) : (a <~ b) = true <-> a < b.
Proof. change (a <~ b) with (Rltb a b). destruct (Rltb_spec a b); split; intro; (discriminate || lra || reflexivity). Qed.
Lemma ltF (a b : R) : (a <~ b) = false <-> b <= a.
Proof. change (a <~ b) with (Rltb a b). destruct (Rltb_spec a b); split; intro; (discriminate || lra || reflexivity). Qed.
Lemma leT (a b : R) : (a <=~ b) = true <-> a <= b.
Proof. change (a <=~ b) with (Rleb a b). destruct (Rleb_spec a b); split; intro; (discriminate || lra || reflexivity). Qed.
Lemma leF (a b : R) : (a <=~ b) = false <-> b < a.
Proof. change (a <=~ b) with (Rleb a b). destruct (Rleb_spec a b); split; intro; (discriminate || lra || reflexivity). Qed.

(** ** C198: the volumes *)
(** A configuration is accepted exactly when it is usable. *)
Definition usable (tiny : R) (c : acfg R) : Prop :=
  0 <= a_maxcond c /\ Reps <= a_minscale c <= 1 /\ tiny < a_vol c /\ 0 < a_minpct c < a_bandpct c /\ a_bandpct c < 50 /\
  0 < a_maxrate c /\ 0 <= a_hold c /\ 0 < a_tmin c < a_tmax c /\ Reps <= a_pmax c /\ (Reps < a_thr c -> Reps <= a_oneway c).
Theorem C198_valid : forall tiny c pos fluid, acc_valid tiny c pos fluid = true <-> usable tiny c /\ 0 <= pos <= 1 /\ fluid = true.
Proof.
  intros. unfold acc_valid, is_in_range, usable. rewrite fiftyR. rewrite !andb_true_iff, !negb_true_iff, !andb_false_iff.
  rewrite !ltF, !leF, !leT. change (@neps R RNum) with Reps. change (@n0 R RNum) with 0. change (@n1 R RNum) with 1.
  split.
  - intros H. decompose [and] H. clear H. repeat split; try assumption; lra.
  - intros ((H1 & H2 & H3 & H4 & H5 & H6 & H7 & H8 & H9 & H10) & H11 & H12). repeat split; try assumption; lra.
Qed.
Print Assumptions C198_valid.

(** The shape of the chambers that [c] describes. *)
Theorem C198_shape : forall tiny c, 0 <= tiny -> usable tiny c -> let g := acc_geo c in
  g_min g = a_vol c * (a_minpct c / 100) /\ g_max g = a_vol c /\ g_band g = a_vol c * (a_bandpct c / 100) /\
  g_range g = g_max g - g_min g /\ g_total g = g_max g + g_min g /\ 0 < g_min g < g_band g /\ g_band g < g_max g / 2.
Proof.
  intros tiny c Z (H1 & H2 & H3 & H4 & H5 & _) g. unfold g, acc_geo. cbn [g_min g_max g_band g_range g_total]. rewrite hundredR. rnum.
  assert (V : 0 < a_vol c) by lra. assert (A : 0 < a_vol c * a_minpct c) by nra.
  assert (B : a_vol c * a_minpct c < a_vol c * a_bandpct c) by (apply Rmult_lt_compat_l; lra).
  assert (C : a_vol c * a_bandpct c < a_vol c * 50) by (apply Rmult_lt_compat_l; lra).
  repeat split; lra.
Qed.
Print Assumptions C198_shape.
(** A sound chamber: the bellows divide the total volume at their position. *)
Definition sound (g : ageo R) (x : chamber R) : Prop :=
  0 <= x_pos x <= 1 /\ x_liq x = g_min g + x_pos x * (g_max g - g_min g) /\ x_liq x + x_gas x = g_max g + g_min g.
Definition shaped (g : ageo R) : Prop := 0 < g_min g < g_max g /\ g_range g = g_max g - g_min g /\ g_total g = g_max g + g_min g.
Lemma shape tiny c : 0 <= tiny -> usable tiny c -> shaped (acc_geo c).
Proof. intros Z U. destruct (C198_shape tiny c Z U) as (A & B & C & D & E & F & G). unfold shaped. repeat split; lra. Qed.
Lemma gas_rest g liq : shaped g -> g_min g <= liq <= g_max g -> liq + gas_volume g liq = g_max g + g_min g.
Proof.
  intros (A & B & C) H. unfold gas_volume. destruct (g_max g <=~ liq) eqn:E; [apply leT in E; lra|]. apply leF in E.
  destruct (liq <=~ g_min g) eqn:F; [apply leT in F; lra|]. apply leF in F. rewrite C. rnum. rewrite limit_id; lra.
Qed.
Lemma pos_vol g p : shaped g -> 0 <= p <= 1 -> g_min g <= g_min g + p * (g_max g - g_min g) <= g_max g.
Proof. intros (A & B & C) H. assert (0 <= p * (g_max g - g_min g)) by (apply Rmult_le_pos; lra). assert (p * (g_max g - g_min g) <= 1 * (g_max g - g_min g)) by (apply Rmult_le_compat_r; lra). lra. Qed.
Lemma derive_sound g x : shaped g -> 0 <= x_pos x <= 1 -> sound g (derive g x) /\ x_pos (derive g x) = x_pos x.
Proof.
  intros S H. pose proof (pos_vol g (x_pos x) S H) as V. destruct S as (A & B & C). unfold sound, derive. cbn [x_pos x_liq x_gas].
  assert (L : limit_range (g_min g) (x_pos x *~ g_range g +~ g_min g) (g_max g) = g_min g + x_pos x * (g_max g - g_min g)).
  { rewrite B. rnum. rewrite limit_id; lra. }
  rewrite L. repeat split; try lra. apply gas_rest; [unfold shaped; repeat split; lra|exact V].
Qed.
Lemma ramp_val (dt cur goal rate glo ghi rlo rhi : R) : ramp dt cur goal rate glo ghi rlo rhi =
  (let g := limit_range glo goal ghi in let r := limit_range rlo rate rhi in
   let v := if cur <~ g then nmin (cur +~ r *~ dt) g else if g <~ cur then nmax (cur -~ r *~ dt) g else cur in (v, g, r, g ==~ v)).
Proof. reflexivity. Qed.
(** A ramp goes towards the limited target by no more than the limited rate, and not past it. *)
Theorem C198_ramp : forall dt cur goal rate glo ghi rhi, 0 <= dt -> glo <= ghi -> 0 <= rhi ->
  let g := Rmax glo (Rmin goal ghi) in let d := Rmax 0 (Rmin rate rhi) * dt in
  let '(v, g', r', done) := ramp dt cur goal rate glo ghi 0 rhi in
  g' = g /\ r' = Rmax 0 (Rmin rate rhi) /\ (done = true <-> v = g) /\
  (Rabs (g - cur) <= d -> v = g) /\ (d < Rabs (g - cur) -> Rabs (v - cur) = d /\ Rabs (g - v) = Rabs (g - cur) - d) /\
  Rmin cur g <= v <= Rmax cur g.
Proof.
  intros dt cur goal rate glo ghi rhi D G H g d. rewrite ramp_val. cbv zeta. rewrite !limit_within by lra.
  fold (within glo goal ghi) in g. change (within 0 rate rhi) with (Rmax 0 (Rmin rate rhi)). change (within glo goal ghi) with g.
  set (r := Rmax 0 (Rmin rate rhi)) in *. assert (R0 : 0 <= r) by apply Rmax_l. clearbody r g.
  assert (D0 : 0 <= r * dt) by (apply Rmult_le_pos; lra). split; [reflexivity|]. split; [reflexivity|].
  set (v := if cur <~ g then _ else _). change (g ==~ v) with (Reqb g v).
  assert (E : v = if Rlt_dec cur g then Rmin (cur + d) g else if Rlt_dec g cur then Rmax (cur - d) g else cur).
  { unfold v. change (cur <~ g) with (Rltb cur g). change (g <~ cur) with (Rltb g cur). rewrite nminR, nmaxR. unfold d.
    destruct (Rltb_spec cur g), (Rlt_dec cur g); try lra; try reflexivity. destruct (Rltb_spec g cur), (Rlt_dec g cur); try lra; reflexivity. }
  clearbody v. fold d in D0. clearbody d. split.
  - destruct (Reqb_spec g v); split; intro; (discriminate || lra || reflexivity).
  - rewrite E. clear E v. unfold Rmin, Rmax, Rabs.
    repeat match goal with |- context [Rlt_dec ?a ?b] => destruct (Rlt_dec a b) | |- context [Rle_dec ?a ?b] => destruct (Rle_dec a b) | |- context [Rcase_abs ?a] => destruct (Rcase_abs a) end; repeat split; intros; try lra.
Qed.
Print Assumptions C198_ramp.

Definition fit (c : acfg R) (g : ageo R) (x : chamber R) : Prop :=
  sound g x /\ Reps <= x_mass x /\ a_tmin c <= x_temp x <= a_tmax c.
Lemma mass_floor (v rho : R) : Reps <= mass_of v rho.
Proof. unfold mass_of. rewrite nmaxR. apply Rmax_r. Qed.
Lemma step_floor (dt fl m : R) : Reps <= mass_step dt fl m.
Proof. unfold mass_step. rewrite nmaxR. apply Rmax_r. Qed.
Lemma temp_in c f dt r m t : a_tmin c <= a_tmax c -> a_tmin c <= chamber_temp c f dt r m t <= (a_tmax c : R).
Proof. intro H. unfold chamber_temp, acc_temp. apply limit_in. exact H. Qed.
Lemma force_fit c g f dt r goal rate u x : shaped g -> 0 <= dt -> 0 <= a_maxrate c -> a_tmin c <= a_tmax c ->
  0 <= x_pos x <= 1 -> a_tmin c <= x_temp x <= a_tmax c -> fit c g (fst (fst (fst (force_liq c g f dt r goal rate u x)))).
Proof.
  intros S D M T P X. unfold force_liq. pose proof (C198_ramp dt (x_pos x) goal rate 0 1 (a_maxrate c) D ltac:(lra) M) as K. cbv zeta in K.
  change (@n0 R RNum) with 0. change (@n1 R RNum) with 1. destruct (ramp dt (x_pos x) goal rate 0 1 0 (a_maxrate c)) as [[[pos g'] r'] done].
  destruct K as (_ & _ & _ & _ & _ & K). cbn [fst].
  assert (P' : 0 <= pos <= 1). { revert K. unfold Rmin, Rmax. repeat match goal with |- context [Rle_dec ?a ?b] => destruct (Rle_dec a b) end; lra. }
  unfold fit. cbn [x_mass x_temp]. split; [|split; [apply mass_floor|]].
  - destruct (derive_sound g (mkch pos (x_liq x) (x_gas x) (x_mass x) (x_temp x)) S P') as [Q1 Q2]. unfold sound in *. cbn [x_pos x_liq x_gas] in *. rewrite Q2 in Q1. exact Q1.
  - destruct u; [apply temp_in; exact T|exact X].
Qed.
Lemma update_fit c g f dt r x : shaped g -> a_tmin c <= a_tmax c -> fit c g x -> fit c g (update_liq c g f dt r x).
Proof.
  intros S T X. unfold update_liq. destruct (r_hold r); [exact X|]. unfold fit. cbn [x_mass x_temp].
  split; [|split; [apply step_floor|apply temp_in; exact T]].
  set (rho := f_rho f _). set (m := mass_step _ _ _). set (liq := if n0 <~ rho then _ else _).
  assert (L : g_min g <= liq <= g_max g).
  { unfold liq. destruct (n0 <~ rho); [apply limit_in; destruct S; lra|]. destruct X as ((P & Q & _) & _). rewrite Q. apply pos_vol; [exact S|exact P]. }
  clearbody liq. pose proof (gas_rest g liq S L) as GR. destruct S as (A & B & C). unfold sound. cbn [x_pos x_liq x_gas].
  assert (E : (n0 <~ g_range g) = true) by (apply ltT; rewrite B; change (@n0 R RNum) with 0; lra). rewrite E.
  assert (F : 0 <= (liq - g_min g) / (g_max g - g_min g) <= 1).
  { split; [apply Rmult_le_pos; [lra|apply Rlt_le, Rinv_0_lt_compat; lra]|]. apply (Rmult_le_reg_r (g_max g - g_min g)); [lra|]. unfold Rdiv. rewrite Rmult_assoc, Rinv_l by lra. lra. }
  rewrite B. change ((liq -~ g_min g) /~ (g_max g - g_min g)) with ((liq - g_min g) / (g_max g - g_min g)). rewrite limit_id by exact F.
  repeat split; try lra. field. lra.
Qed.
Lemma edit_fit c g f x v : a_tmin c <= a_tmax c -> fit c g x ->
  fit c g (mkch (x_pos x) (x_liq x) (x_gas x) (snd (fst (edit_temp c f (x_liq x) v))) (snd (edit_temp c f (x_liq x) v))).
Proof.
  intros T (X & M & Y). unfold fit, edit_temp. cbn [fst snd x_mass x_temp]. split; [exact X|]. split; [apply mass_floor|]. apply limit_in. exact T.
Qed.
(** Whatever is imposed, edited or failed, and over any number of steps, the bellows stay within
    their stops and divide the total volume at their position; the mass is never below the least
    mass and the temperature stays in its limits. *)
Theorem C198_sound : forall tiny c f (ss : list (R * around R * bool * bool * impose)) b, 0 <= tiny -> usable tiny c ->
  Forall (fun s => 0 <= fst (fst (fst (fst s)))) ss -> fit c (acc_geo c) (b_x b) ->
  fit c (acc_geo c) (b_x (fold_left (fun b s => liquid_step c (acc_geo c) f (fst (fst (fst (fst s)))) (snd (fst (fst (fst s)))) (snd (fst (fst s))) (snd (fst s)) (snd s) b) ss b)).
Proof.
  intros tiny c f ss. induction ss as [|s ss IH]; intros b Z U D F; [exact F|]. cbn [fold_left]. pose proof (Forall_inv D) as D0. pose proof (Forall_inv_tail D) as D1.
  destruct s as [[[[dt r] ra] bo] i]. cbn [fst snd] in *. apply IH; try assumption. clear IH D D1.
  pose proof (shape tiny c Z U) as S. destruct U as (_ & _ & _ & _ & _ & U1 & _ & U2 & _). set (g := acc_geo c) in *. clearbody g.
  assert (M : 0 <= a_maxrate c) by lra. assert (T : a_tmin c <= a_tmax c) by lra.
  unfold liquid_step.
  assert (X : exists v x, (if b_tedit b then let '(v, m, t) := edit_temp c f (x_liq (b_x b)) (b_tval b) in (v, mkch (x_pos (b_x b)) (x_liq (b_x b)) (x_gas (b_x b)) m t) else (b_tval b, b_x b)) = (v, x) /\ fit c g x).
  { destruct (b_tedit b); [|eexists; eexists; split; [reflexivity|exact F]].
    pose proof (edit_fit c g f (b_x b) (b_tval b) T F) as E. destruct (edit_temp c f (x_liq (b_x b)) (b_tval b)) as [[v m] t]. cbn [fst snd] in E. eexists; eexists; split; [reflexivity|exact E]. }
  destruct X as (v & x & E & FX). rewrite E. clear E. cbn [b_stick b_to b_edit b_epos b_erate b_timer b_tval b_tpos b_trate b_set no_edits b_x].
  assert (FF : forall goal rate u y, 0 <= x_pos y <= 1 -> x_temp y = x_temp x -> fit c g (fst (fst (fst (force_liq c g f dt r goal rate u y))))).
  { intros goal rate u y Y1 Y2. apply force_fit; try assumption. rewrite Y2. apply FX. }
  assert (PX : 0 <= x_pos x <= 1) by apply FX.
  destruct i as [| |pos rate].
  - destruct (b_stick b || b_to b).
    + destruct (b_stick b); [exact FX|]. specialize (FF (b_tpos b) (b_trate b) true x PX eq_refl).
      destruct (force_liq c g f dt r (b_tpos b) (b_trate b) true x) as [[[y p] q] done]. exact FF.
    + destruct (b_edit b); [|apply update_fit; assumption]. specialize (FF (b_epos b) (b_erate b) (ra && negb bo) x PX eq_refl).
      destruct (force_liq c g f dt r (b_epos b) (b_erate b) (ra && negb bo) x) as [[[y p] q] done]. cbn [fst] in FF.
      destruct (if done then timer dt (b_timer b) (a_hold c) else (b_timer b, false)) as [t out]. exact FF.
  - set (p := limit_range n0 (x_pos x) n1). assert (P : 0 <= p <= 1) by (apply limit_in; rnum; lra).
    specialize (FF p n0 false (mkch p (x_liq x) (x_gas x) (x_mass x) (x_temp x)) P eq_refl).
    destruct (force_liq c g f dt r p n0 false _) as [[[y p'] q] done]. exact FF.
  - specialize (FF pos rate true x PX eq_refl). destruct (force_liq c g f dt r pos rate true x) as [[[y p] q] done]. exact FF.
Qed.
Print Assumptions C198_sound.
(** Free bellows stand where the mass at its density puts them, or at the stop. *)
Theorem C198_place : forall tiny c f dt r x, 0 <= tiny -> usable tiny c -> let g := acc_geo c in fit c g x -> r_hold r = false ->
  let y := update_liq c g f dt r x in let rho := f_rho f (x_temp y) in
  (0 < rho -> x_liq y = Rmax (g_min g) (Rmin (x_mass y / rho) (g_max g))) /\ (rho <= 0 -> x_liq y = x_liq x) /\
  x_pos y = (x_liq y - g_min g) / (g_max g - g_min g).
Proof.
  intros tiny c f dt r x Z U g F H y rho. pose proof (shape tiny c Z U) as S. fold g in S.
  assert (FY : fit c g y). { apply update_fit; [exact S| |exact F]. destruct U as (_ & _ & _ & _ & _ & _ & _ & U2 & _). lra. }
  destruct FY as ((P & Q & _) & _). split; [|split].
  - intro K. unfold y, update_liq. rewrite H. cbn [x_liq x_mass]. unfold rho, y, update_liq in K. rewrite H in K. cbn [x_temp] in K.
    unfold rho, y, update_liq. rewrite H. cbn [x_temp]. apply ltT in K. change 0 with (@n0 R RNum) in K. rewrite K. rewrite limit_within by (destruct S; lra). reflexivity.
  - intro K. unfold y, update_liq. rewrite H. cbn [x_liq]. unfold rho, y, update_liq in K. rewrite H in K. cbn [x_temp] in K. apply ltF in K. change 0 with (@n0 R RNum) in K. rewrite K. reflexivity.
  - rewrite Q. destruct S as (A & _). field. lra.
Qed.
Print Assumptions C198_place.
Definition ex_c : acfg R := mkacfg 10 (1/10) 1 10 20 (1/2) 1 200 400 1000 1 2 0 5 0.
Lemma ex_usable : usable 0 ex_c.
Proof. unfold usable, ex_c. cbn. pose proof Reps_pos. pose proof Reps_small. repeat split; try lra. Qed.
Definition ex_f : afluid R := mkaf (fun _ => 1000) (fun t => 4 * t) (fun h => h / 4).
Lemma ex_geo : acc_geo ex_c = mkageo (1/10) 1 (2/10) (9/10) (11/10).
Proof. unfold acc_geo, ex_c. cbn [a_vol a_minpct a_bandpct]. rewrite hundredR. rnum. f_equal; lra. Qed.
Example C198_valid_used : acc_valid 0 ex_c (1/2) true = true.
Proof. apply C198_valid. split; [exact ex_usable|]. split; [lra|reflexivity]. Qed.
Definition ex_x (p : R) : chamber R := mkch p (1/10 + p * (9/10)) (1 - p * (9/10)) ((1/10 + p * (9/10)) * 1000) 300.
Example ex_fit p : 0 <= p <= 1 -> fit ex_c (acc_geo ex_c) (ex_x p).
Proof. intro H. rewrite ex_geo. unfold fit, sound, ex_x, ex_c. cbn. pose proof Reps_small. repeat split; try lra. Qed.
(** False: the liquid in the chamber has the volume its mass takes.  At the full stop the mass keeps
    growing with the flow. *)
Theorem C198_full_refuted : exists c f dt r x, usable 0 c /\ fit c (acc_geo c) x /\ x_mass x = x_liq x * f_rho f (x_temp x) /\ r_hold r = false /\ 0 < dt /\
  let y := update_liq c (acc_geo c) f dt r x in x_liq y * f_rho f (x_temp y) < x_mass y.
Proof.
  exists ex_c, ex_f, 1, (mkar 10 1200 0 false false), (ex_x 1). pose proof Reps_pos as E0. pose proof Reps_small as E1.
  split; [exact ex_usable|]. split; [apply ex_fit; lra|]. split; [reflexivity|]. split; [reflexivity|]. split; [lra|].
  cbv zeta. unfold update_liq. cbn [r_hold x_liq x_mass ex_f f_rho r_flow ex_x]. rewrite ex_geo. cbn [g_min g_max].
  assert (M : mass_step 1 10 ((1 / 10 + 1 * (9 / 10)) * 1000) = 1010).
  { unfold mass_step. assert (L : (sorb_limit <~ nabs 10) = true) by (apply ltT; rewrite sorb_limitR; rnum; rewrite Rabs_right; lra). rewrite L. rewrite nmaxR. rnum. rewrite Rmax_left; lra. }
  rewrite M. assert (L : (n0 <~ 1000) = true) by (apply ltT; rnum; lra). rewrite L.
  pose proof (limit_in (1/10) (1010 /~ 1000) 1 ltac:(lra)). lra.
Qed.
Print Assumptions C198_full_refuted.

(** ** C199: the conductivity of the liquid port *)
(** Room to empty, room to fill, width of the dead band. *)
Definition roomE (g : ageo R) (liq : R) := liq - g_min g.
Definition roomF (g : ageo R) (liq : R) := g_max g - liq.
Definition bandw (g : ageo R) := g_band g - g_min g.
Definition banded (g : ageo R) : Prop := shaped g /\ g_min g < g_band g /\ g_band g < g_max g / 2.
Lemma band tiny c : 0 <= tiny -> usable tiny c -> banded (acc_geo c).
Proof. intros Z U. destruct (C198_shape tiny c Z U) as (A & B & C & D & E & F & G). unfold banded, shaped. repeat split; lra. Qed.
Lemma zoneR g liq : banded g -> g_min g <= liq <= g_max g -> zone_of g liq =
  if Req_EM_T (roomE g liq) 0 then ZEmpty else if Req_EM_T (roomF g liq) 0 then ZFull
  else if Rlt_dec (roomE g liq) (bandw g) then ZLow else if Rlt_dec (roomF g liq) (bandw g) then ZHigh else ZMiddle.
Proof.
  intros ((A & B & C) & D & E) H. unfold zone_of, roomE, roomF, bandw.
  destruct (liq <=~ g_min g) eqn:E1; [apply leT in E1|apply leF in E1]; destruct (Req_EM_T (liq - g_min g) 0); try lra; try reflexivity.
  destruct (g_max g <=~ liq) eqn:E2; [apply leT in E2|apply leF in E2]; destruct (Req_EM_T (g_max g - liq) 0); try lra; try reflexivity.
  destruct (g_min g <~ liq) eqn:E3; [apply ltT in E3|apply ltF in E3; lra].
  destruct (liq <~ g_max g) eqn:E4; [apply ltT in E4|apply ltF in E4; lra]. rewrite !andb_true_r.
  destruct (liq <~ g_band g) eqn:E5; [apply ltT in E5|apply ltF in E5]; destruct (Rlt_dec (liq - g_min g) (g_band g - g_min g)); try lra; try reflexivity.
  change (g_max g -~ (g_band g -~ g_min g)) with (g_max g - (g_band g - g_min g)).
  destruct (g_max g - (g_band g - g_min g) <~ liq) eqn:E6; [apply ltT in E6|apply ltF in E6]; destruct (Rlt_dec (g_max g - liq) (g_band g - g_min g)); try lra; reflexivity.
Qed.
Lemma fmodeR thr pin pout : fmode_of thr pin pout = if Rlt_dec thr (pout - pin) then Filling else if Rlt_dec thr (pin - pout) then Draining else Equalized.
Proof.
  unfold fmode_of. change (pout -~ pin) with (pout - pin). change (pin -~ pout) with (pin - pout).
  destruct (thr <~ pout - pin) eqn:E; [apply ltT in E|apply ltF in E]; destruct (Rlt_dec thr (pout - pin)); try lra; try reflexivity.
  destruct (thr <~ pin - pout) eqn:E2; [apply ltT in E2|apply ltF in E2]; destruct (Rlt_dec thr (pin - pout)); try lra; reflexivity.
Qed.
(** Away from the dead bands of its stops the port is open; stuck bellows close it; while the bellows
    are overridden or edited it is open. *)
Theorem C199_open : forall c g dt pin pout liq gas stuck busy s rate, banded g -> g_min g <= liq <= g_max g ->
  (stuck = true -> acc_scale c g dt pin pout liq gas stuck busy s rate = (0, rate)) /\
  (stuck = false -> busy = true \/ (bandw g <= roomE g liq /\ bandw g <= roomF g liq) -> acc_scale c g dt pin pout liq gas stuck busy s rate = (1, rate)).
Proof.
  intros c g dt pin pout liq gas stuck busy s rate B H. pose proof B as ((A1 & A2 & A3) & A4 & A5).
  unfold acc_scale. change (g_band g -~ g_min g) with (bandw g). assert (W : (bandw g <=~ n0) = false) by (apply leF; unfold bandw; rnum; lra). rewrite W.
  rewrite (zoneR g liq B H). split.
  - intros ->. reflexivity.
  - intros -> [->|(Y1 & Y2)].
    + destruct (Req_EM_T (roomE g liq) 0); [reflexivity|]. destruct (Req_EM_T (roomF g liq) 0); [reflexivity|].
      destruct (Rlt_dec (roomE g liq) (bandw g)); [reflexivity|]. destruct (Rlt_dec (roomF g liq) (bandw g)); reflexivity.
    + unfold bandw in *. destruct (Req_EM_T (roomE g liq) 0); [lra|]. destruct (Req_EM_T (roomF g liq) 0); [lra|].
      destruct (Rlt_dec (roomE g liq) (g_band g - g_min g)); [lra|]. destruct (Rlt_dec (roomF g liq) (g_band g - g_min g)); [lra|]. reflexivity.
Qed.
Print Assumptions C199_open.
(** Without the one-way mode (or with pressures equal within the threshold): between the stops the
    port closes in proportion to the room left within the dead band; on a stop it is closed, except
    for a least opening when the pressures move the bellows away from it. *)
Theorem C199_closing : forall c g dt pin pout liq s rate, banded g -> g_min g <= liq <= g_max g ->
  a_thr c <= Reps \/ Rabs (pin - pout) <= a_thr c ->
  let sc := acc_scale c g dt pin pout liq (g_max g + g_min g - liq) false false s rate in
  snd sc = rate /\
  (0 < roomE g liq -> 0 < roomF g liq -> fst sc = Rmin 1 (Rmin (roomE g liq / bandw g) (roomF g liq / bandw g))) /\
  (roomE g liq = 0 -> fst sc = if Rlt_dec (a_thr c) (pout - pin) then a_minscale c else 0) /\
  (roomF g liq = 0 -> fst sc = if Rlt_dec (a_thr c) (pout - pin) then 0 else if Rlt_dec (a_thr c) (pin - pout) then a_minscale c else 0).
Proof.
  intros c g dt pin pout liq s rate B H TH. pose proof B as ((A1 & A2 & A3) & A4 & A5). cbv zeta.
  unfold acc_scale. change (g_band g -~ g_min g) with (bandw g). assert (W : (bandw g <=~ n0) = false) by (apply leF; unfold bandw; rnum; lra). rewrite W.
  assert (W0 : 0 < bandw g) by (unfold bandw; lra).
  change ((liq -~ g_min g) /~ bandw g) with (roomE g liq / bandw g).
  replace ((g_max g + g_min g - liq -~ g_min g) /~ bandw g) with (roomF g liq / bandw g) by (unfold roomF; rnum; f_equal; lra).
  rewrite (zoneR g liq B H). rewrite fmodeR. change (@n0 R RNum) with 0. change (@n1 R RNum) with 1. rewrite !(limit_within 0 _ 1) by lra.
  assert (E0 : 0 <= roomE g liq) by (unfold roomE; lra). assert (F0 : 0 <= roomF g liq) by (unfold roomF; lra).
  assert (EF : 2 * bandw g < roomE g liq + roomF g liq) by (unfold roomE, roomF, bandw; lra).
  assert (DV : forall a, a / bandw g * bandw g = a) by (intro; field; lra).
  assert (D1 : forall a, bandw g <= a -> 1 <= a / bandw g). { intros a Y. apply (Rmult_le_reg_r (bandw g)); [exact W0|]. rewrite DV. lra. }
  assert (D2 : forall a, 0 <= a < bandw g -> 0 <= a / bandw g <= 1). { intros a Y. split; apply (Rmult_le_reg_r (bandw g)); try exact W0; rewrite DV; lra. }
  set (e := roomE g liq) in *. set (fr := roomF g liq) in *. set (w := bandw g) in *. clearbody e fr w.
  assert (M : (@neps R RNum <~ a_thr c) = true -> pout - pin <= a_thr c /\ pin - pout <= a_thr c).
  { intro Y. apply ltT in Y. change (@neps R RNum) with Reps in Y. destruct TH as [TH|TH]; [lra|]. unfold Rabs in TH. destruct (Rcase_abs (pin - pout)); lra. }
  assert (K1 : forall a b, 0 <= a <= 1 -> 1 <= b -> Rmax 0 (Rmin a 1) = Rmin 1 (Rmin a b)).
  { intros a b Y1 Y2. rewrite (Rmin_left a 1), (Rmin_left a b), Rmin_right, Rmax_right by lra. reflexivity. }
  assert (K2 : forall a b, 0 <= a <= 1 -> 1 <= b -> Rmax 0 (Rmin a 1) = Rmin 1 (Rmin b a)).
  { intros a b Y1 Y2. rewrite (Rmin_left a 1), (Rmin_right b a), Rmin_right, Rmax_right by lra. reflexivity. }
  destruct (Req_EM_T e 0) as [Z1|Z1]; [|destruct (Req_EM_T fr 0) as [Z2|Z2]; [|destruct (Rlt_dec e w) as [Z3|Z3]; [|destruct (Rlt_dec fr w) as [Z4|Z4]]]].
  1-4: destruct (neps <~ a_thr c) eqn:EN; try (specialize (M eq_refl) || clear M);
    (destruct (Rlt_dec (a_thr c) (pout - pin)); [|destruct (Rlt_dec (a_thr c) (pin - pout))]); try lra; cbn [fst snd];
    (split; [reflexivity|]); repeat split; intros; try lra; try reflexivity;
    unfold within; try (apply K1; [apply D2|apply D1]; lra); (apply K2; [apply D2|apply D1]; lra).
  cbn [fst snd]. split; [reflexivity|]. repeat split; intros; try lra.
  pose proof (D1 e ltac:(lra)); pose proof (D1 fr ltac:(lra)). symmetry. apply Rmin_left. apply Rmin_glb; assumption.
Qed.
Print Assumptions C199_closing.
Lemma up_ramp (dt s rate hi : R) : 0 <= dt -> 0 <= s <= 1 -> 0 <= rate -> 0 <= hi ->
  (let '(s', _, rate', _) := ramp dt s 1 rate 0 1 0 hi in (s', rate')) = (Rmin 1 (s + Rmin rate hi * dt), Rmin rate hi).
Proof.
  intros D S0 Q H. rewrite ramp_val. cbv zeta. rewrite (limit_id 0 1 1) by lra. rewrite limit_within by lra. unfold within.
  assert (M0 : 0 <= Rmin rate hi) by (apply Rmin_glb; lra). rewrite (Rmax_right 0) by exact M0. set (r := Rmin rate hi) in *. clearbody r.
  assert (P : 0 <= r * dt) by (apply Rmult_le_pos; lra). f_equal.
  destruct (s <~ 1) eqn:E; [apply ltT in E; rewrite nminR; rnum; apply Rmin_comm|apply ltF in E].
  destruct (1 <~ s) eqn:F; [apply ltT in F; lra|]. rewrite Rmin_left; lra.
Qed.
(** In the one-way mode the bellows pushed towards a stop close the port as before; pushed away from
    it they open it at the rate, which is cut, in place, to what opens it in one step. *)
Theorem C199_oneway : forall c g dt pin pout liq s rate, banded g -> g_min g <= liq <= g_max g -> Reps < a_thr c ->
  0 < dt -> 0 <= s <= 1 -> 0 <= rate ->
  let sc := acc_scale c g dt pin pout liq (g_max g + g_min g - liq) false false s rate in
  let up := (Rmin 1 (s + Rmin rate (1 / dt) * dt), Rmin rate (1 / dt)) in
  (a_thr c < pout - pin -> (roomF g liq < bandw g -> sc = (roomF g liq / bandw g, rate)) /\ (roomE g liq < bandw g -> sc = up)) /\
  (a_thr c < pin - pout -> (roomE g liq < bandw g -> sc = (roomE g liq / bandw g, rate)) /\ (roomF g liq < bandw g -> sc = up)).
Proof.
  intros c g dt pin pout liq s rate B H TH D S0 Q. pose proof B as ((A1 & A2 & A3) & A4 & A5). cbv zeta.
  unfold acc_scale. change (g_band g -~ g_min g) with (bandw g). assert (W : (bandw g <=~ n0) = false) by (apply leF; unfold bandw; rnum; lra). rewrite W.
  assert (W0 : 0 < bandw g) by (unfold bandw; lra).
  change ((liq -~ g_min g) /~ bandw g) with (roomE g liq / bandw g).
  replace ((g_max g + g_min g - liq -~ g_min g) /~ bandw g) with (roomF g liq / bandw g) by (unfold roomF; rnum; f_equal; lra).
  rewrite (zoneR g liq B H). rewrite fmodeR. change (@n0 R RNum) with 0. change (@n1 R RNum) with 1. rewrite !(limit_within 0 _ 1) by lra.
  assert (T0 : (@neps R RNum <~ a_thr c) = true) by (apply ltT; exact TH). rewrite T0.
  assert (D0 : (0 <~ dt) = true) by (apply ltT; exact D). rewrite D0. change (1 /~ dt) with (1 / dt).
  assert (I0 : 0 <= 1 / dt) by (apply Rlt_le, Rdiv_lt_0_compat; lra). rewrite up_ramp by lra.
  assert (E0 : 0 <= roomE g liq) by (unfold roomE; lra). assert (F0 : 0 <= roomF g liq) by (unfold roomF; lra).
  assert (EF : 2 * bandw g < roomE g liq + roomF g liq) by (unfold roomE, roomF, bandw; lra).
  assert (DV : forall a, a / bandw g * bandw g = a) by (intro; field; lra).
  assert (D2 : forall a, 0 <= a < bandw g -> 0 <= a / bandw g <= 1). { intros a Y. split; apply (Rmult_le_reg_r (bandw g)); try exact W0; rewrite DV; lra. }
  assert (D3 : forall a, 0 <= a < bandw g -> within 0 (a / bandw g) 1 = a / bandw g). { intros a Y. specialize (D2 a Y). unfold within. rewrite Rmin_left, Rmax_right; lra. }
  pose proof Reps_pos as E1.
  split; intro K.
  - destruct (Rlt_dec (a_thr c) (pout - pin)); [|lra]. split; intro V.
    + destruct (Req_EM_T (roomE g liq) 0); [lra|]. destruct (Req_EM_T (roomF g liq) 0) as [X|X]; [rewrite X; unfold Rdiv; rewrite Rmult_0_l; reflexivity|].
      destruct (Rlt_dec (roomE g liq) (bandw g)); [lra|]. destruct (Rlt_dec (roomF g liq) (bandw g)); [|lra]. rewrite D3 by lra. reflexivity.
    + destruct (Req_EM_T (roomE g liq) 0); [reflexivity|]. destruct (Req_EM_T (roomF g liq) 0) as [X|X]; [lra|].
      destruct (Rlt_dec (roomE g liq) (bandw g)); [|lra]. reflexivity.
  - destruct (Rlt_dec (a_thr c) (pout - pin)); [lra|]. destruct (Rlt_dec (a_thr c) (pin - pout)); [|lra]. split; intro V.
    + destruct (Req_EM_T (roomE g liq) 0) as [X|X]; [rewrite X; unfold Rdiv; rewrite Rmult_0_l; reflexivity|]. destruct (Req_EM_T (roomF g liq) 0); [lra|].
      destruct (Rlt_dec (roomE g liq) (bandw g)); [|lra]. rewrite D3 by lra. reflexivity.
    + destruct (Req_EM_T (roomE g liq) 0); [lra|]. destruct (Req_EM_T (roomF g liq) 0) as [X|X]; [reflexivity|].
      destruct (Rlt_dec (roomE g liq) (bandw g)); [lra|]. destruct (Rlt_dec (roomF g liq) (bandw g)); [|lra]. reflexivity.
Qed.
Print Assumptions C199_oneway.
(** Pushed away from a stop all along, at steps the rate does not overrun, the port opens linearly
    in time. *)
Definition leaving (c : acfg R) (g : ageo R) (i : R * R * R) : Prop :=
  let '(pin, pout, liq) := i in g_min g <= liq <= g_max g /\
  ((a_thr c < pout - pin /\ roomE g liq < bandw g) \/ (a_thr c < pin - pout /\ roomF g liq < bandw g)).
Definition scale_step (c : acfg R) (g : ageo R) (dt : R) (s : R * R) (i : R * R * R) : R * R :=
  acc_scale c g dt (fst (fst i)) (snd (fst i)) (snd i) (g_max g + g_min g - snd i) false false (fst s) (snd s).
Theorem C199_opens : forall c g dt rate is s, banded g -> Reps < a_thr c -> 0 < dt -> 0 <= rate -> rate * dt <= 1 -> 0 <= s <= 1 ->
  Forall (leaving c g) is -> fold_left (scale_step c g dt) is (s, rate) = (Rmin 1 (s + INR (length is) * (rate * dt)), rate).
Proof.
  intros c g dt rate is. induction is as [|i is IH]; intros s B TH D Q L S0 F.
  - cbn [fold_left length INR]. rewrite Rmult_0_l, Rplus_0_r, Rmin_right by lra. reflexivity.
  - cbn [fold_left]. pose proof (Forall_inv F) as F0. pose proof (Forall_inv_tail F) as F1. destruct i as [[pin pout] liq]. destruct F0 as (H & K).
    assert (RR : Rmin rate (1 / dt) = rate). { apply Rmin_left. apply (Rmult_le_reg_r dt); [exact D|]. unfold Rdiv. rewrite Rmult_assoc, Rinv_l by lra. lra. }
    pose proof (C199_oneway c g dt pin pout liq s rate B H TH D S0 Q) as (W1 & W2). cbv zeta in W1, W2. rewrite RR in W1, W2.
    assert (E : scale_step c g dt (s, rate) (pin, pout, liq) = (Rmin 1 (s + rate * dt), rate)).
    { unfold scale_step. cbn [fst snd]. destruct K as [[K1 K2]|[K1 K2]]; [apply (W1 K1); exact K2|apply (W2 K1); exact K2]. }
    rewrite E. assert (P : 0 <= rate * dt) by (apply Rmult_le_pos; lra).
    rewrite IH; try assumption.
    + f_equal. cbn [length]. rewrite S_INR. assert (NN : 0 <= INR (length is)) by apply pos_INR. assert (0 <= INR (length is) * (rate * dt)) by (apply Rmult_le_pos; lra).
      unfold Rmin at 2. destruct (Rle_dec 1 (s + rate * dt)).
      * rewrite !Rmin_left; lra.
      * f_equal. lra.
    + split; [apply Rmin_glb; lra|apply Rmin_l].
Qed.
Print Assumptions C199_opens.
(** The scale stays a fraction and the rate stays non-negative. *)
Theorem C199_fraction : forall c g dt pin pout liq gas stuck busy s rate, 0 <= a_minscale c <= 1 -> 0 <= dt -> 0 <= s <= 1 -> 0 <= rate ->
  let sc := acc_scale c g dt pin pout liq gas stuck busy s rate in 0 <= fst sc <= 1 /\ 0 <= snd sc <= rate.
Proof.
  intros c g dt pin pout liq gas stuck busy s rate M D S0 Q. cbv zeta. unfold acc_scale. set (w := g_band g -~ g_min g).
  destruct (w <=~ n0); [cbn [fst snd]; lra|]. change (@n0 R RNum) with 0. change (@n1 R RNum) with 1.
  set (hi := if 0 <~ dt then 1 /~ dt else 0). assert (HI : 0 <= hi).
  { unfold hi. destruct (0 <~ dt) eqn:E; [apply ltT in E; change (1 /~ dt) with (1 / dt); apply Rlt_le, Rdiv_lt_0_compat; lra|lra]. }
  rewrite up_ramp by assumption.
  pose proof (limit_in 0 ((liq -~ g_min g) /~ w) 1 ltac:(lra)) as L1. pose proof (limit_in 0 ((gas -~ g_min g) /~ w) 1 ltac:(lra)) as L2.
  set (lo := limit_range 0 ((liq -~ g_min g) /~ w) 1) in *. set (hg := limit_range 0 ((gas -~ g_min g) /~ w) 1) in *. clearbody lo hg hi.
  assert (R0 : 0 <= Rmin rate hi <= rate) by (split; [apply Rmin_glb; lra|apply Rmin_l]).
  assert (R1 : 0 <= Rmin 1 (s + Rmin rate hi * dt) <= 1). { split; [|apply Rmin_l]. assert (0 <= Rmin rate hi * dt) by (apply Rmult_le_pos; lra). apply Rmin_glb; lra. }
  destruct stuck; [cbn [fst snd]; lra|].
  destruct (zone_of g liq), busy, (neps <~ a_thr c), (fmode_of (a_thr c) pin pout); cbn [fst snd]; lra.
Qed.
Print Assumptions C199_fraction.
(** False: a step of no time leaves the port as it was going.  It cuts the rate of the one-way mode
    to nothing, and the port of an empty accumulator stays closed for good. *)
Theorem C199_pause_refuted : exists c g pin pout liq rate, usable 0 c /\ g = acc_geo c /\ a_thr c < pout - pin /\ liq = g_min g /\ a_oneway c = rate /\
  snd (scale_step c g (1/10) (0, rate) (pin, pout, liq)) = rate /\
  (forall n, fold_left (scale_step c g (1/10)) (repeat (pin, pout, liq) (5 + n)) (0, rate) = (1, rate)) /\
  (forall n, fst (fold_left (scale_step c g (1/10)) (repeat (pin, pout, liq) n) (scale_step c g 0 (0, rate) (pin, pout, liq))) = 0).
Proof.
  pose proof Reps_pos as E0. pose proof Reps_small as E1.
  exists ex_c, (acc_geo ex_c), 100, 102, (1/10), 2. pose proof (band 0 ex_c ltac:(lra) ex_usable) as B.
  split; [exact ex_usable|]. split; [reflexivity|]. split; [cbn; lra|]. split; [rewrite ex_geo; reflexivity|]. split; [reflexivity|].
  assert (TH : Reps < a_thr ex_c) by (cbn; lra).
  assert (LV : leaving ex_c (acc_geo ex_c) (100, 102, 1/10)).
  { unfold leaving. rewrite ex_geo. unfold roomE, roomF, bandw. cbn. split; [lra|]. left. lra. }
  assert (FR : forall n, Forall (leaving ex_c (acc_geo ex_c)) (repeat (100, 102, 1/10) n)) by (intro n; apply Forall_forall; intros x X; apply repeat_spec in X; rewrite X; exact LV).
  split; [|split].
  - pose proof (C199_opens ex_c (acc_geo ex_c) (1/10) 2 [(100, 102, 1/10)] 0 B TH ltac:(lra) ltac:(lra) ltac:(lra) ltac:(lra) (FR 1%nat)) as K. cbn [fold_left] in K. rewrite K. reflexivity.
  - intro n. rewrite C199_opens; try assumption; try lra; [|apply FR]. rewrite repeat_length, plus_INR. replace (INR 5) with 5 by (cbn; lra).
    pose proof (pos_INR n). rewrite Rmin_left; [reflexivity|lra].
  - assert (Z : scale_step ex_c (acc_geo ex_c) 0 (0, 2) (100, 102, 1/10) = (0, 0)).
    { unfold scale_step. cbn [fst snd]. unfold acc_scale. rewrite (zoneR _ _ B) by (rewrite ex_geo; cbn; lra). rewrite fmodeR.
      rewrite ex_geo. unfold roomE. cbn [g_band g_min g_max]. assert (W : (2/10 -~ 1/10 <=~ n0) = false) by (apply leF; rnum; lra). rewrite W.
      destruct (Req_EM_T (1/10 - 1/10) 0) as [X|X]; [|lra]. cbn [a_thr ex_c].
      assert (T0 : (@neps R RNum <~ 1) = true) by (apply ltT; rnum; lra). rewrite T0. destruct (Rlt_dec 1 (102 - 100)); [|lra].
      assert (D0 : (@n0 R RNum <~ 0) = false) by (apply ltF; rnum; lra). rewrite D0. change (@n0 R RNum) with 0. change (@n1 R RNum) with 1.
      rewrite up_ramp by lra. rewrite (Rmin_right 2 0) by lra. rewrite Rmin_right by lra. f_equal. lra. }
    intro n. rewrite Z. rewrite C199_opens; try assumption; try lra; [|apply FR]. cbn [fst]. rewrite Rmin_right by lra. lra.
Qed.
Print Assumptions C199_pause_refuted.
(** The conductivity of the port: the flow that would fill the capacitance in the step, scaled, and
    never above the greatest. *)
Theorem C199_conductivity : forall c scale cap eff dt, 0 <= a_maxcond c -> 0 <= scale <= 1 -> 0 <= cap ->
  0 <= acc_eff c scale cap eff dt <= a_maxcond c /\
  (Reps < dt -> acc_eff c scale cap eff dt = scale * Rmin (cap / dt) (a_maxcond c)) /\
  (dt <= Reps -> 0 <= eff <= a_maxcond c -> acc_eff c scale cap eff dt = scale * eff).
Proof.
  intros c scale cap eff dt M S0 C. pose proof Reps_pos as E0. unfold acc_eff, acc_cond. change (@n0 R RNum) with 0. split; [apply limit_in; exact M|]. split; intro D.
  - assert (D0 : (@neps R RNum <~ dt) = true) by (apply ltT; exact D). rewrite D0. assert (M0 : (0 <=~ a_maxcond c) = true) by (apply leT; exact M). rewrite M0.
    assert (Q : 0 <= cap / dt) by (apply Rmult_le_pos; [exact C|apply Rlt_le, Rinv_0_lt_compat; lra]).
    rewrite (limit_within 0 (cap /~ dt)) by exact M. change (cap /~ dt) with (cap / dt). unfold within. assert (G0 : 0 <= Rmin (cap / dt) (a_maxcond c)) by (apply Rmin_glb; lra).
    rewrite (Rmax_right 0) by exact G0. assert (G1 : Rmin (cap / dt) (a_maxcond c) <= a_maxcond c) by apply Rmin_r.
    set (k := Rmin (cap / dt) (a_maxcond c)) in *. clearbody k. rnum. apply limit_id. split; [apply Rmult_le_pos; lra|].
    apply (Rle_trans _ (1 * k)); [apply Rmult_le_compat_r; lra|lra].
  - intro Y. assert (D0 : (@neps R RNum <~ dt) = false) by (apply ltF; exact D). rewrite D0. rnum. apply limit_id. split; [apply Rmult_le_pos; lra|].
    apply (Rle_trans _ (1 * eff)); [apply Rmult_le_compat_r; lra|lra].
Qed.
Print Assumptions C199_conductivity.
(** False: steps of no time leave the conductivity unchanged.  Each multiplies it by the scale again. *)
Theorem C199_decay_refuted : exists c scale cap eff, usable 0 c /\ 0 < scale < 1 /\ 0 < eff /\ eff = acc_eff c scale cap eff 1 /\
  forall n, Nat.iter n (fun k => acc_eff c scale cap k 0) eff = eff / 2 ^ n.
Proof.
  pose proof Reps_pos as E0. pose proof Reps_small as E1.
  exists ex_c, (1/2), 4, 2. split; [exact ex_usable|]. split; [lra|]. split; [lra|]. assert (M : 0 <= a_maxcond ex_c) by (cbn; lra). split.
  - destruct (C199_conductivity ex_c (1/2) 4 2 1 M ltac:(lra) ltac:(lra)) as (_ & K & _). rewrite K by lra. cbn [a_maxcond ex_c]. rewrite Rmin_left; lra.
  - intro n. assert (G : forall n, 0 <= 2 / 2 ^ n <= 2).
    { intro k. assert (P : 1 <= 2 ^ k) by (apply pow_R1_Rle; lra). split; [apply Rmult_le_pos; [lra|apply Rlt_le, Rinv_0_lt_compat; lra]|].
      apply (Rmult_le_reg_r (2 ^ k)); [lra|]. unfold Rdiv. rewrite Rmult_assoc, Rinv_l by lra. lra. }
    induction n as [|n IH]; [cbn; lra|]. change (Nat.iter (S n) (fun k => acc_eff ex_c (1/2) 4 k 0) 2) with (acc_eff ex_c (1/2) 4 (Nat.iter n (fun k => acc_eff ex_c (1/2) 4 k 0) 2) 0).
    rewrite IH. destruct (C199_conductivity ex_c (1/2) 4 (2 / 2 ^ n) 0 M ltac:(lra) ltac:(lra)) as (_ & _ & K). rewrite K; [|lra|cbn [a_maxcond ex_c]; specialize (G n); lra].
    cbn [pow]. field. apply pow_nonzero. lra.
Qed.
Print Assumptions C199_decay_refuted.
(** Stiffness: the capacitance of the spring is what one pascal of slope moves. *)
Theorem C199_spring : forall c g pos head rho w, 0 < pos -> Reps <= pos -> 0 < w ->
  let k := 2 * a_c2 c * pos + a_c1 c + head / pos in
  (Reps < k -> spring_cap c g pos head rho w * w * k = g_range g * rho) /\ (k <= Reps -> spring_cap c g pos head rho w = 0).
Proof.
  intros c g pos head rho w P P1 W k. pose proof Reps_pos as E0. unfold spring_cap. rewrite twoR, nmaxR. change (@neps R RNum) with Reps. rewrite Rmax_left by lra.
  replace (2 *~ pos *~ a_c2 c +~ a_c1 c +~ head /~ pos) with k by (unfold k; rnum; unfold Rdiv; ring).
  split; intro K.
  - assert (E : (Reps <~ k) = true) by (apply ltT; exact K). rewrite E. rnum. field. lra.
  - assert (E : (Reps <~ k) = false) by (apply ltF; exact K). rewrite E. reflexivity.
Qed.
Print Assumptions C199_spring.
Example C199_opens_used : Forall (leaving ex_c (acc_geo ex_c)) [(100, 102, 15/100); (102, 100, 95/100)].
Proof. rewrite ex_geo. repeat constructor; unfold roomE, roomF, bandw; cbn; lra. Qed.
Example C199_closing_used : banded (acc_geo ex_c) /\ Rabs (100 - 100) <= a_thr ex_c /\ roomE (acc_geo ex_c) (15/100) / bandw (acc_geo ex_c) = 1/2.
Proof. split; [apply (band 0); [lra|exact ex_usable]|]. rewrite ex_geo. unfold roomE, bandw. cbn. split; [rewrite Rminus_diag_eq by reflexivity; rewrite Rabs_R0; lra|lra]. Qed.
