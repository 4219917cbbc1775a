(** C142, C143: charge, heat and thermal runaway of a battery. *)
From Coq Require Import Floats.
From Coq Require Import Reals Lra Lia List Arith Bool ZArith.
From Verif Require Import Num Ord Loops MathUtil Props_Math BasicLinks Props_BasicFlow Battery Spec_Valve Props_Valve Props_Thermal Props_ThermalDev.
Import ListNotations.
Local Open Scope R_scope.

Lemma fold_total {A} (f : A -> R) l : fold_left (fun s c => s +~ f c) l n0 = total (map f l).
Proof.
  assert (G : forall a, fold_left (fun s c => s +~ f c) l a = a + total (map f l)).
  { induction l as [|x l IH]; intro a; cbn [fold_left map total fold_right]; [lra|]. rewrite IH. rnum. fold (total (map f l)). lra. }
  rewrite G. rnum. lra.
Qed.
Lemma hr : (sec_per_hr : R) = 3600. Proof. unfold sec_per_hr. rnum. unfold Rdec. cbn. lra. Qed.

Lemma within_in lo x hi : lo <= x <= hi -> within lo x hi = x.
Proof. intro H. unfold within, Rmin, Rmax. destruct (Rle_dec x hi), (Rle_dec lo _); lra. Qed.

(** ** C142 *)
(** The state of charge stays in its range, with any currents and malfunctions; in binary64
    unless it is not a number. *)
Section RANGE.
Context {T : Type} {N : Num T} {O : NumOrd T}.
Definition charged (c : cell T) : Prop := (n0 <=~ l_soc c) = true /\ (l_soc c <=~ n1) = true.
Theorem C142_range : forall (voc : T -> T) current dt (c : cell T), (n0 <=~ n1) = true -> charged c ->
  let c' := cell_update voc current dt c in nnan (l_soc c') = false -> charged c'.
Proof.
  intros voc current dt c Z C c' F.
  assert (Z0 : (n0 <=~ n0) = true) by (apply le_refl; apply (le_nan _ _ Z)).
  assert (S : l_soc c' = fst (fst (soc_update voc current dt c))).
  { unfold c', cell_update. destruct (soc_update voc current dt c) as [[s p] r]. destruct (_ || _); reflexivity. }
  unfold charged. rewrite S in *. clear S c'. unfold soc_update in *.
  destruct (l_short c); [split; [exact Z0|exact Z]|]. destruct (l_open c); [exact C|]. cbn [negb] in *.
  set (x := if neps <~ _ then _ else _) in *. destruct x as [[s p] r]. cbn [fst] in *.
  destruct (nnan s) eqn:E; [rewrite (C36_limit_range_nan n0 s n1 E) in F; congruence|].
  apply C36_limit_range_in_range; assumption.
Qed.
End RANGE.
Print Assumptions C142_range.

(** The charge of the cells in service, in ampere hours. *)
Definition charge (l : list (cell R)) : R := total (map (fun c => eff_capacity c * eff_soc c) l).
(** In service, more than empty, and neither emptied nor filled by the current. *)
Definition steady (current dt : R) (c : cell R) : Prop :=
  l_open c = false /\ l_short c = false /\ l_run c = false /\ Reps < eff_capacity c /\ Reps < l_soc c /\
  0 <= l_soc c - current * dt / (3600 * eff_capacity c) <= 1.
Lemma update_steady voc current dt c : l_open c = false -> l_short c = false -> l_run c = false -> Reps < eff_capacity c ->
  l_soc (cell_update voc current dt c) = within 0 (l_soc c - current * dt / (3600 * eff_capacity c)) 1.
Proof.
  intros O S R C. assert (EP := Reps_pos). unfold cell_update, soc_update, runaway. rewrite O, S, R. cbn [negb andb].
  unfold eff_capacity in *. rewrite O, S in *. cbn [orb] in *. rewrite hr.
  set (cap := if l_capf c then l_capv c else l_max c) in *. rnum. rewrite (Rltb_true Reps cap) by exact C. rewrite limit_within by lra.
  rewrite orb_true_r. cbn [with_soc l_soc]. f_equal. field. lra.
Qed.
Lemma update_fixed (voc : R -> R) current dt c :
  let c' := cell_update voc current dt c in
  l_open c' = l_open c /\ l_short c' = l_short c /\ l_run c' = l_run c /\ eff_capacity c' = eff_capacity c.
Proof.
  unfold cell_update. destruct (soc_update voc current dt c) as [[s p] r]. destruct (_ || _); repeat split; reflexivity.
Qed.

(** Charge is conserved: the cells give or take what flows through the battery. *)
Theorem C142_charge : forall voc flux dt (l : list (cell R)),
  let count := INR (length (List.filter contributing l)) in
  (forall c, In c l -> l_open c = true \/ l_short c = true \/ steady (flux / count) dt c) ->
  (exists c, In c l /\ l_open c = false /\ l_short c = false) ->
  charge (update_cells voc flux dt l) = charge l - flux * dt / 3600.
Proof.
  intros voc flux dt l count H E. assert (EP := Reps_pos).
  assert (D : forall c, In c l -> contributing c = negb (l_open c || l_short c)).
  { intros c I. unfold contributing, eff_soc. destruct (l_open c || l_short c) eqn:B.
    - rnum. rewrite Rltb_false by lra. reflexivity.
    - apply orb_false_iff in B. destruct B as [B1 B2]. destruct (H c I) as [A|[A|A]]; [congruence|congruence|]. destruct A as (_ & _ & _ & _ & A & _).
      rnum. rewrite Rltb_true by exact A. reflexivity. }
  assert (P : (0 < length (List.filter contributing l))%nat).
  { destruct E as (c & I & B1 & B2). assert (IN : In c (List.filter contributing l)) by (apply filter_In; rewrite (D c I), B1, B2; auto).
    destruct (List.filter contributing l); [destruct IN|cbn; lia]. }
  unfold update_cells. apply Nat.ltb_lt in P. rewrite P. apply Nat.ltb_lt in P. rewrite dec_nat. fold count. change (flux /~ count) with (flux / count).
  assert (CP : 0 < count) by (apply lt_0_INR; exact P).
  assert (G : charge (map (cell_update voc (flux / count) dt) l) = charge l - flux / count * dt / 3600 * INR (length (List.filter contributing l))).
  { clear E P CP. set (i := flux / count) in *. clearbody i. clear count. induction l as [|c l IH]; [unfold charge; cbn; ring|].
    unfold charge. cbn [map total fold_right]. fold (total (map (fun c => eff_capacity c * eff_soc c) l)). fold (total (map (fun c => eff_capacity c * eff_soc c) (map (cell_update voc i dt) l))).
    fold (charge l). fold (charge (map (cell_update voc i dt) l)). rewrite IH by (intros x I; first [apply H|apply D]; right; exact I).
    cbn [List.filter]. rewrite (D c (or_introl eq_refl)).
    destruct (update_fixed voc i dt c) as (F1 & F2 & _ & F4). unfold eff_soc. rewrite F4, F1, F2.
    destruct (l_open c || l_short c) eqn:B; cbn [negb].
    - ring.
    - apply orb_false_iff in B. destruct B as [B1 B2]. destruct (H c (or_introl eq_refl)) as [A|[A|A]]; [congruence|congruence|]. destruct A as (A1 & A2 & A3 & A4 & A5 & A6).
      rewrite update_steady by assumption. rewrite (within_in _ _ _ A6). cbn [length]. rewrite S_INR. field. lra. }
  rewrite G. fold count. field. lra.
Qed.
Print Assumptions C142_charge.
(** A cell that is short of charge or full: discharging never takes more than what flows. *)
Theorem C142_no_more : forall voc current dt (c : cell R),
  l_open c = false -> l_short c = false -> l_run c = false -> Reps < eff_capacity c -> 0 <= l_soc c <= 1 -> 0 <= dt ->
  let moved := eff_capacity c * (l_soc c - l_soc (cell_update voc current dt c)) in
  (0 <= current -> 0 <= moved <= current * dt / 3600) /\ (current <= 0 -> current * dt / 3600 <= moved <= 0).
Proof.
  intros voc current dt c O S R C B D moved. assert (EP := Reps_pos). unfold moved. rewrite update_steady by assumption.
  set (x := current * dt / (3600 * eff_capacity c)). assert (X : eff_capacity c * x = current * dt / 3600) by (unfold x; field; lra).
  rewrite <- X. assert (XS : (0 <= current -> 0 <= x) /\ (current <= 0 -> x <= 0)).
  { assert (K : x = current * (dt / (3600 * eff_capacity c))) by (unfold x; field; lra). assert (K2 : 0 <= dt / (3600 * eff_capacity c)) by (apply Rmult_le_pos; [lra|left; apply Rinv_0_lt_compat; lra]).
    rewrite K. split; intro; nra. }
  clearbody x. set (cp := eff_capacity c) in *. clearbody cp. destruct XS as [X1 X2]. split; intro I; [specialize (X1 I)|specialize (X2 I)];
    unfold within, Rmin, Rmax; destruct (Rle_dec _ 1), (Rle_dec 0 _); try lra; split; nra.
Qed.
Print Assumptions C142_no_more.
(** An empty cell among charged ones takes current too when the battery is charged: here one ampere
    hour is taken from the network and the cells gain two. *)
Definition fresh (soc : R) : cell R := mkcell false false false 0 false 0 1 10 soc 0 0.
Theorem C142_empty_cell_refuted : exists l : list (cell R), Forall (fun c => cell_valid c = true) l /\
  charge (update_cells (fun _ => 1) (-1) 3600 l) - charge l = 2.
Proof.
  exists [fresh (/ 2); fresh 0]. assert (EP := Reps_pos). assert (ES := Reps_small). split.
  { repeat constructor; unfold cell_valid, fresh, is_in_range; cbn [l_r l_max l_soc]; rnum; rewrite !Rltb_false, !Rleb_true by lra; reflexivity. }
  assert (K1 : contributing (fresh (/ 2)) = true) by (unfold contributing, eff_soc, fresh; cbn; rnum; apply Rltb_true; lra).
  assert (K0 : contributing (fresh 0) = false) by (unfold contributing, eff_soc, fresh; cbn; rnum; apply Rltb_false; lra).
  unfold update_cells. cbn [List.filter]. rewrite K1, K0. cbn [length Nat.ltb Nat.leb]. rewrite dec_nat. change (-1 /~ INR 1) with (-1 / 1). unfold charge. cbn [map].
  unfold eff_soc. cbn [total fold_right].
  destruct (update_fixed (fun _ => 1) (-1 / 1) 3600 (fresh (/ 2))) as (A1 & A2 & _ & A4). destruct (update_fixed (fun _ => 1) (-1 / 1) 3600 (fresh 0)) as (B1 & B2 & _ & B4). cbv zeta in A1, A2, A4, B1, B2, B4.
  rewrite A1, A2, A4, B1, B2, B4. cbn [fresh l_open l_short l_soc orb].
  rewrite !update_steady by (try reflexivity; unfold eff_capacity; cbn; lra).
  unfold eff_capacity. cbn [fresh l_open l_short l_capf l_max l_soc orb]. unfold within, Rmin, Rmax. destruct (Rle_dec _ 1), (Rle_dec 0 _), (Rle_dec _ 1), (Rle_dec 0 _); lra.
Qed.
Print Assumptions C142_empty_cell_refuted.
(** A battery with no charge left takes none, however long it is charged. *)
Theorem C142_dead : forall voc (flux dt : nat -> R) (l : list (cell R)), Forall (fun c => l_soc c = 0) l ->
  forall n, Nat.iter n (fun kl => (S (fst kl), update_cells voc (flux (fst kl)) (dt (fst kl)) (snd kl))) (O, l) = (n, l).
Proof.
  intros voc flux dt l H. assert (EP := Reps_pos).
  assert (C : List.filter contributing l = []).
  { induction H as [|c l E H IH]; [reflexivity|]. cbn [List.filter]. unfold contributing, eff_soc. rewrite E. rnum. destruct (_ || _); rewrite Rltb_false by lra; exact IH. }
  induction n as [|n IH]; [reflexivity|]. cbn [Nat.iter nat_rect]. unfold Nat.iter in IH. rewrite IH. cbn [fst snd]. unfold update_cells. rewrite C. reflexivity.
Qed.
Print Assumptions C142_dead.

(** Resistances and voltages of cells in series and in parallel. *)
Theorem C142_series : forall (voc : R -> R) l, Reps <= total (map eff_resistance l) ->
  series_resistance l = total (map eff_resistance l) /\ series_voc voc l = total (map (eff_voltage voc) l).
Proof. intros. unfold series_resistance, series_voc. rewrite !fold_total, nmaxR. rnum. rewrite Rmax_left by assumption. split; reflexivity. Qed.
Theorem C142_parallel : forall (voc : R -> R) l, l <> [] -> Forall (fun c => Reps <= eff_resistance c <= / Reps) l ->
  / parallel_resistance l = total (map (fun c => / eff_resistance c) l) /\
  Forall (fun c => 0 < parallel_resistance l <= eff_resistance c) l /\
  (forall v, parallel_voc voc l <= v <-> 0 <= v /\ Forall (fun c => eff_voltage voc c <= v) l).
Proof.
  intros voc l NE H. assert (EP := Reps_pos).
  set (g := total (map (fun c => / eff_resistance c) l)).
  assert (S : total (map (fun c => n1 /~ nmax (eff_resistance c) neps) l) = g).
  { unfold g. clear g NE. induction H as [|c l E H IH]; [reflexivity|]. cbn [map total fold_right].
    change (fold_right Rplus 0 (map (fun c => n1 /~ nmax (eff_resistance c) neps) l)) with (total (map (fun c => n1 /~ nmax (eff_resistance c) neps) l)). rewrite IH. rewrite nmaxR. rnum. rewrite Rmax_left by lra. unfold total. f_equal. field. lra. }
  assert (GE : Forall (fun c => / eff_resistance c <= g) l).
  { unfold g. clear S g NE. assert (P : forall l, Forall (fun c => Reps <= eff_resistance c <= / Reps) l -> 0 <= total (map (fun c => / eff_resistance c) l)).
    { induction 1 as [|c m E _ IH]; cbn [map total fold_right]; [lra|]. assert (0 < / eff_resistance c) by (apply Rinv_0_lt_compat; lra). unfold total in IH. lra. }
    induction H as [|c l E H IH]; [constructor|]. cbn [map total fold_right]. fold (total (map (fun c => / eff_resistance c) l)). constructor; [specialize (P l H); lra|].
    eapply Forall_impl; [|exact IH]. intros a A. cbv beta in A. assert (0 < / eff_resistance c) by (apply Rinv_0_lt_compat; lra). lra. }
  assert (GP : Reps <= g).
  { destruct l as [|c l]; [congruence|]. inversion H as [|? ? E _]; subst. inversion GE as [|? ? GE1 _]; subst. eapply Rle_trans; [|exact GE1].
    rewrite <- (Rinv_inv Reps). apply Rinv_le_contravar; lra. }
  assert (PR : parallel_resistance l = / g).
  { unfold parallel_resistance. rewrite fold_total, S, nmaxR. rnum. rewrite Rmax_left by exact GP. field. lra. }
  split; [rewrite PR; field; lra|]. split.
  - rewrite PR. apply Forall_forall. intros c I. rewrite Forall_forall in H, GE. specialize (H c I). specialize (GE c I).
    split; [apply Rinv_0_lt_compat; lra|]. rewrite <- (Rinv_inv (eff_resistance c)). apply Rinv_le_contravar; [apply Rinv_0_lt_compat; lra|exact GE].
  - intro v. unfold parallel_voc. clear.
    assert (G : forall l a, fold_left (fun v c => if v <~ eff_voltage voc c then eff_voltage voc c else v) l a <= v <-> a <= v /\ Forall (fun c => eff_voltage voc c <= v) l).
    { intro m. induction m as [|c m IH]; intro a; cbn [fold_left]; [split; [intro H; split; [exact H|constructor]|tauto]|]. rewrite IH. change (a <~ eff_voltage voc c) with (Rltb a (eff_voltage voc c)). destruct (Rltb_spec a (eff_voltage voc c)) as [A|A]; split.
      - intros [H1 H2]. split; [lra|constructor; assumption].
      - intros [H1 H2]. inversion H2; subst. split; assumption.
      - intros [H1 H2]. split; [lra|constructor; [lra|assumption]].
      - intros [H1 H2]. inversion H2; subst. split; assumption. }
    apply G.
Qed.
Print Assumptions C142_parallel.

(** What the battery puts on the network, from the state of its cells: a shorted cell is a wire, an open
    one and one in runaway do not conduct and give no voltage. *)
Definition ohms (c : cell R) : R := if l_short c then Reps else if l_open c then / Reps else if l_run c then / Reps else l_r c.
Definition volts (voc : R -> R) (c : cell R) : R :=
  if l_short c then 0 else if l_open c then 0 else if l_run c then 0 else voc (l_soc c).
Lemma ohms_is c : eff_resistance c = ohms c.
Proof. assert (EP := Reps_pos). unfold eff_resistance, ohms. destruct (l_short c), (l_open c), (l_run c); cbn [orb]; rnum; try reflexivity; field; lra. Qed.
Lemma volts_is voc c : eff_voltage voc c = volts voc c.
Proof. unfold eff_voltage, volts. destruct (l_short c), (l_open c), (l_run c); reflexivity. Qed.
Theorem C142_terminals : forall (voc : R -> R) (b : batt R),
  (t_par b = false -> Reps <= total (map ohms (t_cells b)) ->
     batt_eff b = 1 / (t_ir b + total (map ohms (t_cells b))) /\ batt_source voc b = total (map (volts voc) (t_cells b))) /\
  (t_par b = true -> t_cells b <> [] -> Forall (fun c => Reps <= ohms c <= / Reps) (t_cells b) ->
     batt_eff b = 1 / (t_ir b + / total (map (fun c => / ohms c) (t_cells b))) /\
     (forall v, batt_source voc b <= v <-> 0 <= v /\ Forall (fun c => volts voc c <= v) (t_cells b))).
Proof.
  intros voc b. assert (EO : forall l, map eff_resistance l = map ohms l) by (intro l; apply map_ext, ohms_is).
  assert (EV : forall l, map (eff_voltage voc) l = map (volts voc) l) by (intro l; apply map_ext, volts_is).
  unfold batt_eff, batt_source. split; intros ->.
  - rewrite <- EO, <- EV. intro H. destruct (C142_series voc (t_cells b) H) as [-> ->]. split; reflexivity.
  - intros NE H. destruct (C142_parallel voc (t_cells b) NE) as (A & _ & B); [eapply Forall_impl; [|exact H]; intros c; rewrite ohms_is; tauto|].
    assert (EI : map (fun c => / eff_resistance c) (t_cells b) = map (fun c => / ohms c) (t_cells b)) by (apply map_ext; intro c; rewrite ohms_is; reflexivity).
    rewrite <- EI, <- A, Rinv_inv. split; [reflexivity|]. intro v. rewrite B.
    assert (EF : Forall (fun c => eff_voltage voc c <= v) (t_cells b) <-> Forall (fun c => volts voc c <= v) (t_cells b)) by (split; apply Forall_impl; intros c; rewrite volts_is; tauto).
    tauto.
Qed.
Print Assumptions C142_terminals.
Example ex_terminals : exists b : batt R, t_par b = false /\ map ohms (t_cells b) = [1; Reps] /\ map (volts (fun x => 10 * x)) (t_cells b) = [5; 0].
Proof. exists (mkbatt [mkcell false false false 0 false 0 1 10 (/ 2) 0 0; mkcell false true false 0 false 0 1 10 (/ 2) 0 0] false 0 0 false 0 0 0). cbn. unfold ohms, volts. cbn. repeat split; try reflexivity. f_equal. lra. Qed.

(** The flow through the battery, from port 0 to port 1, is what the cells give. *)
Theorem C142_flow : forall (voc : R -> R) dt g (b : batt R) (k : @base R),
  let '(b2, k2, _) := batt_flows voc dt g b k in let count := INR (length (List.filter contributing (t_cells b))) in
  (forall c, In c (t_cells b) -> l_open c = true \/ l_short c = true \/ steady (b_flux k2 / count) dt c) ->
  (exists c, In c (t_cells b) /\ l_open c = false /\ l_short c = false) ->
  charge (t_cells b2) = charge (t_cells b) - b_flux k2 * dt / 3600.
Proof.
  intros voc dt g b k. unfold batt_flows. cbv zeta. cbn [t_cells with_cells]. set (f := b_flux _). intros H E. apply C142_charge; assumption.
Qed.
Print Assumptions C142_flow.

(** An accepted battery has the capacity and the charge of its configuration. *)
Theorem C142_init : forall num par (r ir maxcap soc : R) run dur int b, batt_init num par r ir maxcap soc run dur int = Some b ->
  let '(s, cap, heat) := outputs 0 0 (t_cells b) in
  s = soc /\ cap = maxcap /\ heat = 0 /\ 0 <= soc <= 1 /\ 0 <= r /\ 0 <= ir /\ Reps * INR num <= maxcap /\ length (t_cells b) = num /\ (1 <= num)%nat.
Proof.
  intros num par r ir maxcap soc run dur int b H. unfold batt_init in H.
  set (c := mkcell false false false n0 false n0 r (maxcap /~ ndec (Z.of_nat num) 0) soc n0 n0) in H.
  destruct (negb (ir <~ n0) && negb (Nat.ltb num 1) && is_in_range n0 soc n1 && cell_valid c) eqn:E; [|discriminate].
  injection H as <-. rewrite !andb_true_iff in E. destruct E as [[[E1 E2] E3] E4]. unfold cell_valid in E4. rewrite !andb_true_iff in E4. destruct E4 as [[E4 E5] _].
  unfold outputs. rewrite !fold_total, nmaxR. cbn [t_cells]. rewrite repeat_length.
  apply negb_true_iff, Nat.ltb_ge in E2. assert (NP : 0 < INR num) by (apply lt_0_INR; lia).
  assert (TR : forall (f : cell R -> R) c n, total (map f (repeat c n)) = INR n * f c).
  { clear. intros f c n. induction n as [|n IH]; [cbn; ring|]. cbn [repeat map total fold_right]. rewrite S_INR. unfold total in IH. rewrite IH. ring. }
  rewrite !TR. destruct (Nat.ltb_spec 0 num); [|lia]. rewrite !dec_nat.
  unfold eff_soc, eff_capacity. subst c. cbn [l_open l_short l_capf l_max l_soc l_pow l_r orb] in *. rewrite dec_nat in *. unfold is_in_range in E3. rnum.
  revert E1 E3 E4 E5. destruct (Rltb_spec ir 0), (Rleb_spec 0 soc), (Rleb_spec soc 1), (Rltb_spec r 0), (Rltb_spec (maxcap / INR num) Reps); try discriminate. intros _ _ _ _.
  split; [field; lra|]. split; [field; lra|]. split; [unfold Rdiv; ring|]. split; [lra|]. split; [lra|]. split; [lra|]. split; [|split; [reflexivity|exact E2]].
  replace maxcap with (maxcap / INR num * INR num) by (field; lra). apply Rmult_le_compat_r; lra.
Qed.
Print Assumptions C142_init.

(** Terminal voltage, delivered power and heat: the source's power is the one delivered plus the
    heat, that of a runaway aside. *)
Theorem C142_power : forall (voc : R -> R) dt (b : batt R) (k : @base R) p0 p1,
  let '(b1, k1, g) := batt_step voc dt b k in
  let '(b2, k2, (soc, cap, heat)) := batt_flows voc dt g b1 (with_pot k1 p0 p1) in
  let i := b_flux k2 in
  b_power k2 = i * (p1 - p0) /\
  (Reps <= g -> p1 - p0 = batt_source voc b1 - i / g /\
     batt_source voc b1 * i = b_power k2 + (heat - total (map l_pow (t_cells b2))) /\
     total (map l_pow (t_cells b2)) <= heat) /\
  (b_malf k = false -> batt_eff b1 <= 10 ^ 15 -> 0 <= batt_eff b1 -> g = batt_eff b1) /\
  (b_malf k = true -> b_malfv k = 1 -> i = 0).
Proof.
  intros voc dt b k p0 p1. unfold batt_step. set (b1 := cascade dt b).
  set (g := limit_range n0 _ conductance_limit).
  assert (GE : g = within 0 (if b_malf k then batt_eff b1 * (1 - b_malfv k) else batt_eff b1) (10 ^ 15)) by (unfold g; rewrite clamp_lim; rnum; reflexivity).
  clearbody g. unfold batt_flows. set (k0 := with_pot _ p0 p1).
  assert (F : flux_src (with_drop k0 (delta k0)) = (p0 - p1 + batt_source voc b1) * g).
  { unfold flux_src, k0, with_drop, delta, with_pot, build_potential, with_src. cbn [b_drop b_a0 b_w0 b_p0 b_p1]. rewrite set_adm_a0. rnum. ring. }
  unfold outputs. rewrite !fold_total, nmaxR. cbn [with_flux compute_power with_power b_flux b_power]. rewrite F.
  assert (D : delta (with_flux (with_drop k0 (delta k0)) ((p0 - p1 + batt_source voc b1) * g)) = p0 - p1) by reflexivity. rewrite D.
  cbn [t_cells with_cells]. set (Q := total (map l_pow _)). assert (EP := Reps_pos). rnum.
  split; [ring|]. split; [|split].
  - intro L. rewrite Rmax_left by exact L. split; [field; lra|]. split; [field; lra|].
    set (i := (p0 - p1 + batt_source voc b1) * g). assert (0 <= i * i / g) by (apply Rmult_le_pos; [apply Rle_0_sqr|left; apply Rinv_0_lt_compat; lra]). lra.
  - intros M L1 L2. rewrite GE, M. apply within_in. lra.
  - intros M M1. rewrite GE, M, M1. replace (batt_eff b1 * (1 - 1)) with 0 by ring. rewrite within_in by (split; [lra|apply pow_le; lra]). ring.
Qed.
Print Assumptions C142_power.
Example ex_C142 : exists b : batt float, batt_init 2 true 1%float 0%float 8%float 0.5%float false 0%float 0%float = Some b /\
  let l := update_cells (fun _ => 10%float) 1%float 3600%float (t_cells b) in
  map l_soc l = [0.375%float; 0.375%float] /\ outputs 1%float 0.5%float l = (0.375%float, 8%float, 2%float).
Proof. eexists. split; [vm_compute; reflexivity|]. split; vm_compute; reflexivity. Qed.

(** ** C143 *)
(** One step of a cell in thermal runaway. *)
Lemma run_step (voc : R -> R) current dt c :
  l_open c = false -> l_short c = false -> l_run c = true -> Reps < eff_capacity c -> 0 < l_soc c ->
  let V := Rmax Reps (voc (l_soc c)) in
  let rate := if Reqb 0 (l_pow c) then 2 * (l_soc c * eff_capacity c * V * 3600) / Rmax Reps (l_dur c * l_dur c) else l_rate c in
  let pow := l_pow c + rate * dt in
  let soc := within 0 (l_soc c - (current + pow / V) * dt / eff_capacity c / 3600) 1 in
  cell_update voc current dt c = with_soc c soc (if Reqb 0 soc then 0 else pow) (if Reqb 0 soc then 0 else rate).
Proof.
  intros O S R C P. cbv zeta. unfold cell_update, soc_update, runaway. rewrite O, S, R. cbn [negb andb].
  unfold eff_capacity in *. rewrite O, S in *. cbn [orb] in *. rewrite hr, !nmaxR.
  set (cap := if l_capf c then l_capv c else l_max c) in *. rnum. replace (Rdec 2 0) with 2 by (unfold Rdec; cbn; lra).
  rewrite (Rltb_true Reps cap), (Rltb_true 0 (l_soc c)) by assumption. rewrite limit_within by lra. rewrite orb_false_r.
  destruct (Reqb 0 (within _ _ _)); reflexivity.
Qed.
Lemma run_empty (voc : R -> R) current dt c : l_open c = false -> l_short c = false -> Reps < eff_capacity c -> l_soc c = 0 -> 0 <= current -> 0 <= dt ->
  l_soc (cell_update voc current dt c) = 0.
Proof.
  intros O S C P I D. assert (EP := Reps_pos). unfold cell_update, soc_update, runaway. rewrite O, S, P. cbn [negb].
  unfold eff_capacity in *. rewrite O, S in *. cbn [orb] in *. rewrite hr.
  set (cap := if l_capf c then l_capv c else l_max c) in *. rnum. rewrite (Rltb_true Reps cap), (Rltb_false 0 0) by lra. rewrite andb_false_r. rewrite limit_within by lra.
  assert (E : within 0 (0 - (current + 0) * dt / cap / 3600) 1 = 0).
  { assert (0 <= (current + 0) * dt / cap / 3600) by (repeat apply Rmult_le_pos; try lra; left; apply Rinv_0_lt_compat; lra).
    unfold within, Rmin, Rmax. destruct (Rle_dec _ 1), (Rle_dec 0 _); lra. }
  rewrite E. destruct (_ || _); reflexivity.
Qed.
(** A cell after some steps with the given currents. *)
Fixpoint after (voc : R -> R) (dt : R) (currents : list R) (c : cell R) : cell R :=
  match currents with [] => c | i :: l => after voc dt l (cell_update voc i dt c) end.

(** A cell in thermal runaway is empty at the end of its duration at the latest, whatever else is
    drawn from it, as long as the voltage does not rise when the charge falls. *)
Theorem C143_empties : forall (voc : R -> R) dt c currents,
  l_open c = false -> l_short c = false -> l_run c = true -> Reps < eff_capacity c ->
  0 < l_soc c <= 1 -> l_pow c = 0 -> 0 < dt -> Reps <= l_dur c * l_dur c -> 0 <= l_dur c ->
  (forall x y, 0 <= x -> x <= y -> y <= 1 -> voc x <= voc y) ->
  Forall (fun i => 0 <= i) currents -> l_dur c <= INR (length currents) * dt ->
  l_soc (after voc dt currents c) = 0.
Proof.
  intros voc dt c currents Ho Hs Hr C P Z D U U0 M F L. assert (EP := Reps_pos).
  set (V0 := Rmax Reps (voc (l_soc c))). assert (V0P : 0 < V0) by (unfold V0; eapply Rlt_le_trans; [exact EP|apply Rmax_l]).
  set (s0 := l_soc c) in *. set (dur := l_dur c) in *. set (cap := eff_capacity c) in *.
  assert (DP : 0 < dur) by nra.
  set (u := dt * dt / (dur * dur)). set (r := 2 * (s0 * cap * V0 * 3600) / (dur * dur)).
  assert (UP : 0 < u) by (unfold u; apply Rmult_lt_0_compat; [nra|apply Rinv_0_lt_compat; lra]).
  assert (RP : 0 < r) by (unfold r; apply Rmult_lt_0_compat; [apply Rmult_lt_0_compat; [lra|]; repeat apply Rmult_lt_0_compat; lra|apply Rinv_0_lt_compat; lra]).
  assert (G : forall l k d, Forall (fun i => 0 <= i) l -> l_open d = false -> l_short d = false -> l_run d = true -> eff_capacity d = cap -> l_dur d = dur ->
    l_soc d = 0 \/ (0 < l_soc d <= s0 * (1 - INR k * (INR k + 1) * u) /\ l_pow d = INR k * (r * dt) /\ (k <> O -> l_rate d = r) /\ (k = O -> l_soc d = s0)) ->
    l_soc (after voc dt l d) = 0 \/ 0 < s0 * (1 - INR (k + length l) * (INR (k + length l) + 1) * u)).
  { clear F L. induction l as [|i l IH]; intros k d Fl O' S' R' C' U' I.
    - cbn [after length]. rewrite Nat.add_0_r. destruct I as [I|(I & _)]; [left; exact I|right; lra].
    - cbn [after length]. rewrite Nat.add_succ_r, <- Nat.add_succ_l. inversion Fl as [|? ? Fi Fl']; subst.
      destruct (update_fixed voc i dt d) as (E1 & E2 & E3 & E4). cbv zeta in E1, E2, E3, E4.
      assert (E5 : l_dur (cell_update voc i dt d) = dur) by (rewrite <- U'; unfold cell_update; destruct (soc_update voc i dt d) as [[? ?] ?]; destruct (_ || _); reflexivity).
      apply IH; try congruence. destruct I as [I|(I1 & I2 & I3 & I4)].
      { left. apply run_empty; try assumption; try lra. }
      assert (KP := pos_INR k).
      assert (SB : l_soc d <= s0).
      { assert (0 <= s0 * (INR k * (INR k + 1) * u)) by (apply Rmult_le_pos; [lra|apply Rmult_le_pos; [apply Rmult_le_pos; lra|lra]]). lra. }
      rewrite run_step by (try assumption; try lra; rewrite C'; exact C). rewrite C', U'.
      set (V := Rmax Reps (voc (l_soc d))). assert (VP : 0 < V) by (unfold V; eapply Rlt_le_trans; [exact EP|apply Rmax_l]).
      assert (VV : V <= V0) by (unfold V, V0; apply Rle_max_compat_l; apply M; lra).
      set (rate := if Reqb 0 (l_pow d) then _ else _).
      assert (RE : rate = r).
      { unfold rate. destruct k as [|k].
        - rewrite I2. replace (INR 0 * (r * dt)) with 0 by (cbn; ring). rewrite Reqb_true by reflexivity. unfold r. rewrite I4 by reflexivity.
          rewrite Rmax_right by exact U. unfold V. rewrite (I4 eq_refl). reflexivity.
        - destruct (Reqb_spec 0 (l_pow d)) as [Q|Q]; [|apply I3; discriminate]. exfalso. rewrite I2 in Q.
          assert (0 < INR (Datatypes.S k) * (r * dt)); [|lra]. apply Rmult_lt_0_compat; [apply lt_0_INR; lia|nra]. }
      rewrite RE, I2. clear rate RE.
      replace (INR k * (r * dt) + r * dt) with (INR (Datatypes.S k) * (r * dt)) by (rewrite S_INR; ring).
      set (pow := INR (Datatypes.S k) * (r * dt)). set (x := l_soc d - (i + pow / V) * dt / cap / 3600).
      assert (X : x <= s0 * (1 - INR (Datatypes.S k) * (INR (Datatypes.S k) + 1) * u)).
      { assert (PP : 0 <= pow) by (unfold pow; apply Rmult_le_pos; [apply pos_INR|nra]).
        assert (A1 : pow / V0 <= i + pow / V).
        { assert (/ V0 <= / V) by (apply Rinv_le_contravar; lra). assert (pow * / V0 <= pow * / V) by (apply Rmult_le_compat_l; lra). unfold Rdiv. lra. }
        assert (A2 : pow / V0 * (dt / cap / 3600) <= (i + pow / V) * (dt / cap / 3600)).
        { apply Rmult_le_compat_r; [|exact A1]. repeat apply Rmult_le_pos; try lra. left. apply Rinv_0_lt_compat. lra. }
        assert (A3 : pow / V0 * (dt / cap / 3600) = 2 * INR (Datatypes.S k) * s0 * u) by (unfold pow, r, u; field; lra).
        unfold x. replace ((i + pow / V) * dt / cap / 3600) with ((i + pow / V) * (dt / cap / 3600)) by (field; lra).
        rewrite S_INR in *. destruct I1 as [_ I1].
        assert (A4 : s0 * (1 - INR k * (INR k + 1) * u) - 2 * (INR k + 1) * s0 * u = s0 * (1 - (INR k + 1) * (INR k + 1 + 1) * u)) by ring. lra. }
      cbn [with_soc l_soc l_pow l_rate].
      assert (W : within 0 x 1 = 0 \/ (0 < within 0 x 1 /\ within 0 x 1 <= x)).
      { unfold within, Rmin, Rmax. destruct (Rle_dec x 1), (Rle_dec 0 _); try (left; lra); try lra; (destruct (Req_dec x 0); [left; lra|right; lra]). }
      destruct W as [W|[W1 W2]]; [left; exact W|right].
      destruct (Reqb_spec 0 (within 0 x 1)) as [Q|Q]; [lra|]. split; [lra|]. split; [reflexivity|]. split; [reflexivity|]. intro Y; discriminate. }
  destruct (G currents O c F Ho Hs Hr eq_refl eq_refl) as [A|A].
  - right. change (INR 0) with 0. fold s0. split; [lra|]. split; [rewrite Z; ring|]. split; [congruence|reflexivity].
  - exact A.
  - exfalso. cbn [Nat.add] in A. set (n := INR (length currents)) in *. assert (NP : 0 <= n) by apply pos_INR.
    assert (1 <= n * n * u).
    { unfold u. apply Rmult_le_reg_r with (dur * dur); [lra|]. replace (n * n * (dt * dt / (dur * dur)) * (dur * dur)) with ((n * dt) * (n * dt)) by (field; lra).
      rewrite Rmult_1_l. apply Rmult_le_compat; lra. }
    assert (n * (n + 1) * u = n * n * u + n * u) by ring. assert (0 <= n * u) by nra. nra.
Qed.
Print Assumptions C143_empties.

(** With a constant voltage the charge falls along a parabola and the power rises on a line. *)
Theorem C143_exact : forall v dt c n,
  l_open c = false -> l_short c = false -> l_run c = true -> Reps < eff_capacity c ->
  0 < l_soc c <= 1 -> l_pow c = 0 -> 0 < dt -> Reps <= l_dur c * l_dur c -> Reps <= v ->
  INR n * (INR n + 1) * (dt * dt) < l_dur c * l_dur c ->
  let d := after (fun _ => v) dt (repeat 0 n) c in
  l_soc d = l_soc c * (1 - INR n * (INR n + 1) * (dt * dt) / (l_dur c * l_dur c)) /\
  l_pow d = 2 * (l_soc c * eff_capacity c * v * 3600) / (l_dur c * l_dur c) * (INR n * dt).
Proof.
  intros v dt c n O S R C P Z D U Vp B d. assert (EP := Reps_pos).
  assert (DZ : l_dur c <> 0) by (intro E; rewrite E in U; lra).
  assert (A : forall m e, after (fun _ => v) dt (repeat 0 (Datatypes.S m)) e = cell_update (fun _ => v) 0 dt (after (fun _ => v) dt (repeat 0 m) e)).
  { induction m as [|m IH]; intro e; [reflexivity|]. change (repeat 0 (Datatypes.S (Datatypes.S m))) with (0 :: repeat 0 (Datatypes.S m)). cbn [after]. rewrite IH. reflexivity. }
  set (r := 2 * (l_soc c * eff_capacity c * v * 3600) / (l_dur c * l_dur c)).
  assert (RP : 0 < r) by (unfold r; apply Rmult_lt_0_compat; [apply Rmult_lt_0_compat; [lra|]; repeat apply Rmult_lt_0_compat; lra|apply Rinv_0_lt_compat; lra]).
  assert (G : (l_open d = false /\ l_short d = false /\ l_run d = true /\ eff_capacity d = eff_capacity c /\ l_dur d = l_dur c) /\
    l_soc d = l_soc c * (1 - INR n * (INR n + 1) * (dt * dt) / (l_dur c * l_dur c)) /\ l_pow d = r * (INR n * dt) /\ (n <> 0%nat -> l_rate d = r)).
  { unfold d. clear d. induction n as [|n IH].
    - cbn [repeat after]. split; [tauto|]. cbn [INR]. split; [field; lra|]. split; [rewrite Z; ring|]. intro; congruence.
    - rewrite S_INR in B. assert (KP := pos_INR n). destruct IH as ((I1 & I2 & I3 & I4 & I5) & I6 & I7 & I8); [nra|].
      rewrite A. set (e := after _ dt (repeat 0 n) c) in *. clearbody e.
      assert (EB : forall q, q = 1 - (INR n + 1) * (INR n + 1 + 1) * (dt * dt) / (l_dur c * l_dur c) -> 0 < q <= 1).
      { intros q ->. assert (X : (INR n + 1) * (INR n + 1 + 1) * (dt * dt) / (l_dur c * l_dur c) < 1).
        { apply Rmult_lt_reg_r with (l_dur c * l_dur c); [lra|]. replace ((INR n + 1) * (INR n + 1 + 1) * (dt * dt) / (l_dur c * l_dur c) * (l_dur c * l_dur c)) with ((INR n + 1) * (INR n + 1 + 1) * (dt * dt)) by (field; lra). lra. }
        assert (0 <= (INR n + 1) * (INR n + 1 + 1) * (dt * dt) / (l_dur c * l_dur c)) by (apply Rmult_le_pos; [repeat apply Rmult_le_pos; lra|left; apply Rinv_0_lt_compat; lra]). lra. }
      specialize (EB _ eq_refl).
      assert (SP : 0 < l_soc e).
      { rewrite I6. apply Rmult_lt_0_compat; [lra|]. assert (X : INR n * (INR n + 1) * (dt * dt) / (l_dur c * l_dur c) <= (INR n + 1) * (INR n + 1 + 1) * (dt * dt) / (l_dur c * l_dur c)).
        { apply Rmult_le_compat_r; [left; apply Rinv_0_lt_compat; lra|]. apply Rmult_le_compat_r; nra. } lra. }
      destruct (update_fixed (fun _ => v) 0 dt e) as (E1 & E2 & E3 & E4). cbv zeta in E1, E2, E3, E4.
      assert (E5 : l_dur (cell_update (fun _ => v) 0 dt e) = l_dur e) by (unfold cell_update; destruct (soc_update (fun _ => v) 0 dt e) as [[? ?] ?]; destruct (_ || _); reflexivity).
      split; [repeat split; congruence|].
      rewrite run_step by (try assumption; rewrite I4; exact C). rewrite I4, I5. rewrite !(Rmax_right Reps v) by exact Vp. rewrite (Rmax_right Reps (_ * _)) by exact U.
      set (rate := if Reqb 0 (l_pow e) then _ else _).
      assert (RE : rate = r).
      { unfold rate. destruct n as [|n].
        - rewrite I7. cbn [INR]. replace (r * (0 * dt)) with 0 by ring. rewrite Reqb_true by reflexivity. unfold r. rewrite I6. cbn [INR]. field. lra.
        - destruct (Reqb_spec 0 (l_pow e)) as [Q|Q]; [|apply I8; discriminate]. exfalso. rewrite I7 in Q.
          assert (0 < INR (Datatypes.S n)) by (apply lt_0_INR; lia). assert (0 < r * (INR (Datatypes.S n) * dt)) by (apply Rmult_lt_0_compat; [exact RP|apply Rmult_lt_0_compat; assumption]). lra. }
      rewrite RE. clear rate RE. cbn [with_soc l_soc l_pow l_rate].
      assert (X : l_soc e - (0 + (l_pow e + r * dt) / v) * dt / eff_capacity c / 3600 = l_soc c * (1 - (INR n + 1) * (INR n + 1 + 1) * (dt * dt) / (l_dur c * l_dur c))).
      { rewrite I6, I7. unfold r. field. lra. }
      rewrite X. rewrite S_INR.
      assert (Y : 0 < l_soc c * (1 - (INR n + 1) * (INR n + 1 + 1) * (dt * dt) / (l_dur c * l_dur c)) <= 1) by (split; [apply Rmult_lt_0_compat; lra|nra]).
      rewrite within_in by lra. destruct (Reqb_spec 0 (l_soc c * (1 - (INR n + 1) * (INR n + 1 + 1) * (dt * dt) / (l_dur c * l_dur c)))) as [Q|Q]; [lra|].
      split; [reflexivity|]. split; [rewrite I7; ring|]. reflexivity. }
  destruct G as (_ & G1 & G2 & _). split; [exact G1|exact G2].
Qed.
Print Assumptions C143_exact.

(** The power of the runaway is that of the charge it takes. *)
Theorem C143_heat : forall (voc : R -> R) current dt c,
  l_open c = false -> l_short c = false -> l_run c = true -> Reps < eff_capacity c -> 0 < l_soc c -> 
  let d := cell_update voc current dt c in let V := Rmax Reps (voc (l_soc c)) in
  0 < l_soc d < 1 -> 3600 * eff_capacity c * V * (l_soc c - l_soc d) = (l_pow d + V * current) * dt.
Proof.
  intros voc current dt c O S R C P d V H. assert (EP := Reps_pos).
  assert (VP : 0 < V) by (unfold V; eapply Rlt_le_trans; [exact EP|apply Rmax_l]).
  assert (E : d = _) by (apply run_step; assumption). cbv zeta in E. fold V in E. rewrite E in H |- *. clear E d. cbn [with_soc l_soc l_pow] in H |- *.
  set (rate := if Reqb 0 (l_pow c) then _ else _) in *. clearbody rate. set (pow := l_pow c + rate * dt) in *. clearbody pow. clear rate.
  set (x := l_soc c - (current + pow / V) * dt / eff_capacity c / 3600) in *.
  assert (W : within 0 x 1 = x) by (revert H; unfold within, Rmin, Rmax; destruct (Rle_dec x 1), (Rle_dec 0 _); lra). rewrite W in *.
  destruct (Reqb_spec 0 x) as [Q|Q]; [lra|]. unfold x. field. lra.
Qed.
Print Assumptions C143_heat.

(** The runaway passes from cell to cell: with [m] steps to the interval, cell [i] runs away
    from step [i m + 1] on. *)
Fixpoint cascaded (voc : R -> R) (dt : R) (fluxes : list R) (b : batt R) : batt R :=
  match fluxes with
  | [] => b
  | f :: l => let b := cascade dt b in cascaded voc dt l (with_cells b (update_cells voc f dt (t_cells b)))
  end.
Lemma update_run (voc : R -> R) f dt l : map l_run (update_cells voc f dt l) = map l_run l.
Proof.
  unfold update_cells. destruct (Nat.ltb _ _); [|reflexivity]. rewrite map_map. apply map_ext. intro c.
  destruct (update_fixed voc (f /~ ndec (Z.of_nat (length (List.filter contributing l))) 0) dt c) as (_ & _ & E & _). exact E.
Qed.
Lemma upd_run (l : list (cell R)) j dur : map l_run (upd_cell l j (set_run true dur)) = map (fun p => snd p || Nat.eqb (fst p) j) (combine (seq 0 (length l)) (map l_run l)).
Proof.
  assert (G : forall l a j, map l_run (upd_cell l j (set_run true dur)) = map (fun p => snd p || Nat.eqb (fst p) (a + j)) (combine (seq a (length l)) (map l_run l))).
  { clear. induction l as [|c l IH]; intros a j; [reflexivity|]. destruct j as [|j]; cbn [upd_cell map length seq combine fst snd].
    - rewrite Nat.add_0_r, Nat.eqb_refl, orb_true_r. f_equal. specialize (IH (S a) (length l)). rewrite Nat.add_succ_l in IH.
      assert (Q : forall (l : list (cell R)) b, (a < b)%nat -> map l_run l = map (fun p => snd p || Nat.eqb (fst p) a) (combine (seq b (length l)) (map l_run l))).
      { clear. induction l as [|c l IH]; intros b L; [reflexivity|]. cbn [map length seq combine fst snd]. destruct (Nat.eqb_spec b a); [lia|]. rewrite orb_false_r. f_equal. apply IH. lia. }
      apply Q. lia.
    - destruct (Nat.eqb_spec a (a + S j)); [lia|]. rewrite orb_false_r. f_equal. rewrite IH with (a := S a). rewrite Nat.add_succ_r. reflexivity. }
  rewrite (G l 0%nat j). reflexivity.
Qed.
Lemma upd_cell_len (l : list (cell R)) j f : length (upd_cell l j f) = length l.
Proof. revert j. induction l as [|c l IH]; intros [|j]; cbn; congruence. Qed.
Theorem C143_cascade : forall (voc : R -> R) dt m fluxes (b : batt R),
  t_run b = true -> t_idx b = 0%nat -> t_timer b = 0 -> Forall (fun c => l_run c = false) (t_cells b) ->
  0 < dt -> (1 <= m)%nat -> INR (m - 1) * dt < t_int b \/ m = 1%nat -> t_int b <= INR m * dt ->
  (length fluxes <= length (t_cells b) * m)%nat ->
  map l_run (t_cells (cascaded voc dt fluxes b)) = map (fun i => Nat.ltb (i * m) (length fluxes)) (seq 0 (length (t_cells b))).
Proof.
  intros voc dt m fluxes b R I T F D M1 M2 M3 L. set (n := length (t_cells b)) in *. set (int := t_int b) in *.
  assert (G : forall fl k j q b, (k + length fl <= n * m)%nat -> (k = j * m + q)%nat -> (q < m)%nat -> t_run b = true -> t_int b = int -> t_idx b = j -> t_timer b = INR q * dt ->
    length (t_cells b) = n -> map l_run (t_cells b) = map (fun i => Nat.ltb (i * m) k) (seq 0 n) ->
    map l_run (t_cells (cascaded voc dt fl b)) = map (fun i => Nat.ltb (i * m) (k + length fl)) (seq 0 n)).
  { clear L F T I R. clearbody int n. clear b fluxes. induction fl as [|f fl IH]; intros k j q b L K Q R II I T LN F.
    - cbn [cascaded length]. rewrite Nat.add_0_r. exact F.
    - cbn [cascaded length] in *. replace (k + S (length fl))%nat with (S k + length fl)%nat by lia.
      assert (J : (j < n)%nat) by nia.
      set (b' := with_cells (cascade dt b) _).
      assert (B : t_run b' = true /\ t_int b' = int /\ length (t_cells b') = n /\ map l_run (t_cells b') = map (fun i => Nat.ltb (i * m) (S k)) (seq 0 n) /\
        ((S q < m)%nat -> t_idx b' = j /\ t_timer b' = INR (S q) * dt) /\ (S q = m -> t_idx b' = S j /\ t_timer b' = 0)).
      { assert (C : cascade dt b = if Rleb int (INR (S q) * dt)
           then mkbatt (upd_cell (t_cells b) j (set_run true (t_dur b))) true (t_dur b) int (t_par b) (t_ir b) (S j) 0
           else mkbatt (upd_cell (t_cells b) j (set_run true (t_dur b))) true (t_dur b) int (t_par b) (t_ir b) j (INR (S q) * dt)).
        { unfold cascade. rewrite R, I, LN, T, II. destruct (Nat.leb_spec n j); [lia|]. rewrite S_INR. rnum. replace (INR q * dt + dt) with ((INR q + 1) * dt) by ring. reflexivity. }
        assert (LE : length (t_cells b') = n).
        { unfold b'. cbn [with_cells t_cells]. rewrite <- (map_length l_run), update_run, map_length. rewrite C. destruct (Rleb _ _); cbn [t_cells]; rewrite upd_cell_len; exact LN. }
        assert (FE : map l_run (t_cells b') = map (fun i => Nat.ltb (i * m) (S k)) (seq 0 n)).
        { unfold b'. cbn [with_cells t_cells]. rewrite update_run. replace (t_cells (cascade dt b)) with (upd_cell (t_cells b) j (set_run true (t_dur b))) by (rewrite C; destruct (Rleb _ _); reflexivity).
          rewrite upd_run, F, LN. clear - K Q M1.
          assert (W : forall l : list nat, map (fun p => snd p || Nat.eqb (fst p) j) (combine l (map (fun i => Nat.ltb (i * m) k) l)) = map (fun i => Nat.ltb (i * m) (S k)) l).
          { induction l as [|i l IH]; [reflexivity|]. cbn [map combine fst snd]. f_equal; [|exact IH].
            destruct (Nat.ltb_spec (i * m) k), (Nat.eqb_spec i j), (Nat.ltb_spec (i * m) (S k)); cbn; try reflexivity; subst; nia. }
          apply W. }
        assert (TI : (S q < m)%nat -> Rleb int (INR (S q) * dt) = false).
        { intro QM. destruct (Rleb_spec int (INR (S q) * dt)) as [A|A]; [|reflexivity]. exfalso. destruct M2 as [M2|M2]; [|lia].
          assert (INR (S q) <= INR (m - 1)) by (apply le_INR; lia). nra. }
        assert (TI' : S q = m -> Rleb int (INR (S q) * dt) = true) by (intros ->; apply Rleb_true; exact M3).
        split; [unfold b'; rewrite C; destruct (Rleb _ _); reflexivity|]. split; [unfold b'; rewrite C; destruct (Rleb _ _); reflexivity|].
        split; [exact LE|]. split; [exact FE|]. split; intro QM; unfold b'; rewrite C; [rewrite TI by exact QM|rewrite TI' by exact QM]; split; reflexivity. }
      destruct B as (B1 & B2 & B3 & B4 & B5 & B6).
      destruct (Nat.eq_dec (S q) m) as [QM|QM].
      + destruct (B6 QM) as [C1 C2]. apply (IH (S k) (S j) 0%nat b'); try assumption; try lia. rewrite C2. cbn. ring.
      + destruct (B5 ltac:(lia)) as [C1 C2]. apply (IH (S k) j (S q) b'); try assumption; lia. }
  replace (length fluxes) with (0 + length fluxes)%nat by lia. apply (G fluxes 0%nat 0%nat 0%nat b); try assumption; try lia; try reflexivity.
  - rewrite T. cbn. ring.
  - unfold n. clear - F. assert (Q : forall a, map l_run (t_cells b) = map (fun i => Nat.ltb (i * m) 0) (seq a (length (t_cells b)))).
    { induction F as [|c l E F IH]; intro a; [reflexivity|]. cbn [map length seq]. rewrite E. f_equal. apply IH. }
    apply Q.
Qed.
Print Assumptions C143_cascade.
(** Turned off in the midst of an interval, it stops in all cells. *)
Theorem C143_release : forall dt (b : batt R), t_run b = false -> 0 < t_timer b ->
  Forall (fun c => l_run c = false) (t_cells (cascade dt b)).
Proof.
  intros dt b R T. unfold cascade. rewrite R. rnum. rewrite Rltb_true by exact T. cbn [t_cells]. apply Forall_forall. intros c I.
  apply in_map_iff in I. destruct I as (d & <- & _). reflexivity.
Qed.
(** Turned off just after the end of an interval, the cells run away for ever. *)
Definition turned_off (b : batt R) : batt R := mkbatt (t_cells b) false (t_dur b) (t_int b) (t_par b) (t_ir b) (t_idx b) (t_timer b).
Theorem C143_release_refuted : exists b : batt R, batt_init 2 true 1 0 10 1 true 100 2 = Some b /\
  let b2 := turned_off (cascade 1 (cascade 1 b)) in
  forall n, map l_run (t_cells (Nat.iter n (cascade 1) b2)) = [true; false].
Proof.
  assert (EP := Reps_pos). assert (ES := Reps_small). eexists. split.
  { unfold batt_init, cell_valid, is_in_range. cbn [l_r l_max l_soc Nat.ltb Nat.leb]. rewrite dec_nat. rnum. replace (INR 2) with 2 by (cbn; lra). rewrite !Rltb_false, !Rleb_true by lra. reflexivity. }
  cbv zeta. cbn [repeat]. unfold cascade at 2 3. cbn [t_run t_cells t_idx t_int t_timer length Nat.leb t_dur t_par t_ir]. rnum.
  rewrite (Rleb_false 2 (0 + 1)) by lra. cbn [t_run t_cells t_idx t_int t_timer length Nat.leb t_dur t_par t_ir upd_cell]. rewrite (Rleb_true 2) by lra.
  unfold turned_off. cbn [t_run t_cells t_idx t_int t_timer length Nat.leb t_dur t_par t_ir upd_cell].
  set (l := [_; _]). assert (L : map l_run l = [true; false]) by reflexivity. clearbody l.
  assert (G : forall n i b, t_run b = false -> t_timer b = 0 -> map l_run (t_cells b) = [true; false] -> i = Nat.iter n (cascade 1) b -> t_run i = false /\ t_timer i = 0 /\ map l_run (t_cells i) = [true; false]).
  { clear. induction n as [|n IH]; intros i b H1 H2 H3 ->; [auto|]. cbn [Nat.iter nat_rect]. destruct (IH _ b H1 H2 H3 eq_refl) as (A1 & A2 & A3). unfold Nat.iter in *. set (j := nat_rect _ _ _ n) in *. clearbody j.
    unfold cascade. rewrite A1, A2. rnum. rewrite Rltb_false by lra. cbn. auto. }
  intro n. edestruct (G n) as (_ & _ & E); [| | |reflexivity|exact E]; try reflexivity. exact L.
Qed.
Print Assumptions C143_release_refuted.
Example ex_C143 : exists c : cell R, l_open c = false /\ l_short c = false /\ l_run c = true /\ Reps < eff_capacity c /\ 0 < l_soc c <= 1 /\ l_pow c = 0 /\ Reps <= l_dur c * l_dur c.
Proof. assert (ES := Reps_small). exists (mkcell false false false 0 true 100 1 10 1 0 0). unfold eff_capacity. cbn. repeat split; lra. Qed.
