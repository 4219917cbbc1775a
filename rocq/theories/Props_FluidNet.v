(** C115: a closed network of nodes and conductors conserves mass, species and energy. *)
From Coq Require Import Floats.
From Coq Require Import Reals List Lra Lia Bool Arith.
From Verif Require Import Num Fluid FluidNode Spec_Fluid Spec_FluidNode Props_Fluid Props_FluidNode.
Import ListNotations.
Open Scope R_scope.

(** ** Lists *)
Fixpoint upd' {A} (i : nat) (g : A -> A) (l : list A) : list A :=
  match l with
  | [] => []
  | a :: l => match i with O => g a :: l | S i => a :: upd' i g l end
  end.
Lemma upd_go {A} (g : A -> A) l : forall s i,
  map (fun q => if Nat.eqb (fst q) (s + i) then g (snd q) else snd q) (combine (seq s (length l)) l) = upd' i g l.
Proof.
  assert (H : forall (l : list A) s j, (j < s)%nat ->
    map (fun q => if Nat.eqb (fst q) j then g (snd q) else snd q) (combine (seq s (length l)) l) = l).
  { clear l. induction l as [|a l IH]; intros s j Hj; [reflexivity|]. cbn [length seq combine map fst snd].
    replace (s =? j)%nat with false by (symmetry; apply Nat.eqb_neq; lia). f_equal. apply IH. lia. }
  induction l as [|a l IH]; intros s i; [now destruct i|]. cbn [length seq combine map fst snd].
  destruct i as [|i]; cbn [upd'].
  - rewrite Nat.add_0_r, Nat.eqb_refl. f_equal. apply H. lia.
  - replace (s =? s + S i)%nat with false by (symmetry; apply Nat.eqb_neq; lia). f_equal.
    rewrite <- (IH (S s) i). now replace (s + S i)%nat with (S s + i)%nat by lia.
Qed.
Lemma upd_eq {A} i (g : A -> A) l : upd i g l = upd' i g l.
Proof. exact (upd_go g l 0%nat i). Qed.
Lemma upd_app {A} i (g : A -> A) l m : (i < length l)%nat -> upd' i g (l ++ m) = upd' i g l ++ m.
Proof.
  revert i. induction l as [|a l IH]; intros i H; cbn in H; [lia|]. destruct i as [|i]; cbn; [reflexivity|].
  f_equal. apply IH. lia.
Qed.
Lemma upd_length {A} i (g : A -> A) l : length (upd' i g l) = length l.
Proof. revert i. induction l as [|a l IH]; intros [|i]; cbn; auto. Qed.
Lemma upd_map {A B} (f : A -> B) i (g : A -> A) l : (forall a, f (g a) = f a) -> map f (upd' i g l) = map f l.
Proof. intro H. revert i. induction l as [|a l IH]; intros [|i]; cbn; congruence. Qed.
Lemma upd_forall {A} (P : A -> Prop) i (g : A -> A) l : Forall P l -> (forall a, P a -> P (g a)) -> Forall P (upd' i g l).
Proof.
  intros H Hg. revert i. induction H as [|a l Ha Hl IH]; intros [|i]; cbn; constructor; auto.
Qed.
Lemma upd_sum {A} (G : A -> R) i (g : A -> A) l a : nth_error l i = Some a ->
  rsum (map G (upd' i g l)) = rsum (map G l) + (G (g a) - G a).
Proof.
  revert i. induction l as [|b l IH]; intros [|i] H; try discriminate; cbn in *.
  - injection H as ->. lra.
  - fold (rsum (map G l)). fold (rsum (map G (upd' i g l))). rewrite (IH i H). lra.
Qed.
Lemma upd_nth {A} i (g : A -> A) l a : nth_error l i = Some a -> nth_error (upd' i g l) i = Some (g a).
Proof.
  revert i. induction l as [|b l IH]; intros [|i] H; try discriminate; cbn in *; [congruence|]. now apply IH.
Qed.
Lemma nth_some {A} (l : list A) i : (i < length l)%nat -> exists a, nth_error l i = Some a.
Proof.
  intro H. destruct (nth_error l i) as [a|] eqn:E; [now exists a|]. apply nth_error_None in E. lia.
Qed.
Lemma forall_nth {A} (P : A -> Prop) l i a : Forall P l -> nth_error l i = Some a -> P a.
Proof. intros H E. rewrite Forall_forall in H. apply H. now apply nth_error_In in E. Qed.

(** ** Nodes while the links work *)
Record primed (k : list (nat * props R)) (n : fnode R) : Prop := {
  pr_sound : sound n;
  pr_kind : kind (n_content n) = k;
  pr_mw : f_mw (n_outflow n) = f_mw (n_content n);
  pr_h : f_h (n_outflow n) = f_h (n_content n);
  pr_x : map c_x (f_cs (n_outflow n)) = map c_x (f_cs (n_content n));
  pr_w : map c_w (f_cs (n_outflow n)) = map c_w (f_cs (n_content n))
}.
Lemma set_pressure_kind f (p : R) : kind (set_pressure f p) = kind f.
Proof. reflexivity. Qed.

Lemma reset_primed k n p : well k n ->
  exists n1, reset_flows n = Ok n1 /\ primed k (set_potential n1 p) /\
    n_content (set_potential n1 p) = set_pressure (n_content n) p /\
    n_in n1 = 0 /\ n_sched n1 = 0 /\ n_heat n1 = 0 /\ Forall (fun x => x = 0) (species_flow (n_inflow n1)) /\
    n_vol n1 = n_vol n /\ n_dampmass n1 = n_dampmass n /\ n_expsf n1 = n_expsf n.
Proof.
  intros [W1 W2 W3 W4 W5]. unfold reset_flows.
  destruct (set_state_ok (n_outflow n) (n_content n)) as [o [Eo [o1 [o2 [o3 [o4 [o5 o6]]]]]]]; [now rewrite W5, W3|].
  rewrite Eo. eexists. split; [reflexivity|]. split.
  - constructor; cbn [set_potential n_content n_outflow]; try assumption.
    constructor; cbn [set_potential n_content n_outflow n_inflow n_in]; try rewrite set_pressure_kind.
    + rewrite reset_kind. congruence.
    + congruence.
    + exact W2.
    + apply (C109_keep _ W2 W1).
    + apply reset_stream.
    + reflexivity.
  - cbn [set_potential n_content n_in n_sched n_heat n_inflow n_vol n_dampmass n_expsf].
    repeat split. unfold species_flow, reset_state. cbn [f_cs]. rewrite map_map.
    apply Forall_forall. intros x Hx. apply in_map_iff in Hx. destruct Hx as [c [<- _]]. reflexivity.
Qed.

Lemma out_source n w k : primed k n ->
  (forall d, In d (f_cs (n_content n)) -> c_x d = 0 \/ Reps * Reps <= w * c_x d) ->
  source (n_outflow n) w /\ species_of (n_outflow n) w = map (fun c => w * c_x c) (f_cs (n_content n)).
Proof.
  intros [S K PM PH PX PW] H. pose proof (so_content _ S) as B.
  assert (ES : species_of (n_outflow n) w = map (fun c => w * c_x c) (f_cs (n_content n))).
  { unfold species_of. rewrite <- (map_map c_x (fun x => w * x)), PX, map_map. reflexivity. }
  split; [|exact ES]. constructor.
  - unfold total. rewrite PX. exact (bal_x _ B).
  - assert (HC : Forall2 (fun c d => c_x c = c_x d /\ c_w c = c_w d) (f_cs (n_outflow n)) (f_cs (n_content n))).
    { revert PX PW. generalize (f_cs (n_outflow n)) (f_cs (n_content n)).
      induction l as [|c l IH]; intros [|d m] HX HW; try discriminate; constructor; cbn [map] in *.
      - injection HX as X1 _. injection HW as W1 _. auto.
      - injection HX as _ X2. injection HW as _ W2. auto. }
    intros c Hc. assert (HD : exists d, In d (f_cs (n_content n)) /\ c_x c = c_x d /\ c_w c = c_w d).
    { clear - HC Hc. induction HC as [|a b l m H1 H2 IH]; [destruct Hc|]. destruct Hc as [->|Hc].
      - exists b. split; [now left|exact H1].
      - destruct (IH Hc) as [d [Hd E]]. exists d. split; [now right|exact E]. }
    destruct HD as [d [Hd [E1 E2]]]. rewrite E1, E2. split; [now apply (bal_pos _ B)|].
    destruct (H d Hd) as [E|E]; [left|now right]. split; [exact E|]. rewrite (bal_flow _ B d Hd), E. ring.
Qed.

(** What collecting an influx from the outflow of a node does. *)
Lemma influx_primed k n s w : primed k n -> primed k s -> Reps <= w ->
  (forall d, In d (f_cs (n_content s)) -> c_x d = 0 \/ Reps * Reps <= w * c_x d) ->
  let n' := collect_influx sqrt n w (n_outflow s) in
  primed k n' /\ n_content n' = n_content n /\
  species_flow (n_inflow n') = padd (species_flow (n_inflow n)) (map (fun c => w * c_x c) (f_cs (n_content s))) /\
  n_heat n' = n_heat n + w * f_h (n_content s) /\ n_in n' = n_in n + w /\ n_sched n' = n_sched n.
Proof.
  intros HN HS HW HX. cbn zeta. destruct (out_source s w k HS HX) as [SR ES].
  destruct HN as [SN KN A1 A2 A3 A4].
  destruct (C111_add (n_inflow n) (n_outflow s) w) as [B1 [B2 [B3 [B4 [B5 [_ [_ [_ [B6 [B7 _]]]]]]]]]].
  { apply kind_same. rewrite (so_in _ SN), (so_out _ (pr_sound _ _ HS)), KN. symmetry. apply HS. }
  { apply (types_pr (n_content n)); [|apply SN]. apply kind_pr. symmetry. apply SN. }
  { apply SN. } { exact SR. } { exact HW. }
  split.
  - constructor; cbn [collect_influx n_content n_outflow]; try assumption.
    constructor; cbn [collect_influx n_content n_outflow n_inflow n_in]; try apply SN.
    + rewrite <- (so_in _ SN). apply kind_split; assumption.
    + exact B2.
    + rewrite B3, (so_rate _ SN). reflexivity.
  - cbn [collect_influx n_content n_inflow n_heat n_in n_sched]. rewrite <- ES.
    split; [reflexivity|]. split; [exact B4|]. split; [|split; reflexivity].
    rewrite (pr_h _ _ HS). reflexivity.
Qed.
Lemma primed_eq k n n' : primed k n -> n_content n' = n_content n -> n_outflow n' = n_outflow n ->
  n_inflow n' = n_inflow n -> n_in n' = n_in n -> primed k n'.
Proof.
  intros [[S1 S2 S3 S4 S5 S6] K A1 A2 A3 A4] E1 E2 E3 E4.
  constructor; rewrite ?E1, ?E2, ?E3; try assumption. constructor; rewrite ?E1, ?E2, ?E3, ?E4; assumption.
Qed.

(** ** The ledger of one quantity: mass, a species or energy *)
Section LEDGER.
Variable k : list (nat * props R).
Variable phi : fluid R -> R.
Variable G : fnode R -> R.
Hypothesis G_sched : forall n x, G (schedule_outflux n x) = G n - x * f_mw (n_content n) * phi (n_content n).
Hypothesis G_out : forall n w, G (collect_outflux n w) = G n.
Hypothesis G_in : forall n s w, primed k n -> primed k s -> Reps <= w ->
  (forall d, In d (f_cs (n_content s)) -> c_x d = 0 \/ Reps * Reps <= w * c_x d) ->
  G (collect_influx sqrt n w (n_outflow s)) = G n + w * phi (n_content s).

(** What the link carries. *)
Definition amount (cs : list (fluid R)) (l : fcond R) : R :=
  match nth_error cs (if Rlt_dec 0 (cond_flux l) then k_from l else k_to l) with
  | Some c => Rabs (cond_flux l) * f_mw c * phi c
  | None => 0
  end.

Lemma compute_step ns (l : fcond R) : Forall (primed k) ns -> closed (length ns) l -> clear_flux (map n_content ns) l ->
  forall g, exists ns', compute_flows (ns ++ [g]) l = ns' ++ [g] /\ Forall (primed k) ns' /\
    length ns' = length ns /\ map n_content ns' = map n_content ns /\
    rsum (map G ns') = rsum (map G ns) - amount (map n_content ns) l.
Proof.
  intros HP [C1 C2] HF g. pose proof Reps_pos as EP. unfold compute_flows. cbn zeta. rewrite !upd_eq, !upd_app by assumption.
  unfold clear_flux in HF. unfold amount. generalize dependent (cond_flux l). intros x HF.
  destruct HF as [E|[c [E1 [E2 [E3 E4]]]]].
  - subst x. rnum. destruct (Rltb_spec Reps 0); [lra|]. destruct (Rltb_spec 0 (- Reps)); [lra|].
    exists ns. split; [reflexivity|]. split; [exact HP|]. do 2 (split; [reflexivity|]).
    destruct (nth_error _ _); [|ring]. rewrite Rabs_R0. ring.
  - rewrite E1. rewrite nth_error_map in E1. destruct (Rlt_dec 0 x) as [HX|HX].
    + rewrite Rabs_right in * by lra. rnum. destruct (Rltb_spec Reps x); [|lra].
      eexists. split; [reflexivity|]. split; [|split; [apply upd_length|split]].
      * apply upd_forall; [exact HP|]. intros a Ha. apply (primed_eq k a); auto.
      * now apply upd_map.
      * destruct (nth_error ns (k_from l)) as [nd|] eqn:EN; [|discriminate]. cbn [option_map] in E1. injection E1 as E1.
        rewrite (upd_sum G _ _ _ nd EN), G_sched, E1. ring.
    + rewrite Rabs_left1 in * by lra. rnum. destruct (Rltb_spec Reps x); [lra|].
      destruct (Rltb_spec x (- Reps)); [|lra].
      eexists. split; [reflexivity|]. split; [|split; [apply upd_length|split]].
      * apply upd_forall; [exact HP|]. intros a Ha. apply (primed_eq k a); auto.
      * now apply upd_map.
      * destruct (nth_error ns (k_to l)) as [nd|] eqn:EN; [|discriminate]. cbn [option_map] in E1. injection E1 as E1.
        rewrite (upd_sum G _ _ _ nd EN), G_sched, E1. ring.
Qed.

Lemma compute_all ls : forall ns g, Forall (primed k) ns -> Forall (closed (length ns)) ls ->
  Forall (clear_flux (map n_content ns)) ls ->
  exists ns', fold_left compute_flows ls (ns ++ [g]) = ns' ++ [g] /\ Forall (primed k) ns' /\
    length ns' = length ns /\ map n_content ns' = map n_content ns /\
    rsum (map G ns') = rsum (map G ns) - rsum (map (amount (map n_content ns)) ls).
Proof.
  induction ls as [|l ls IH]; intros ns g HP HC HF; cbn [fold_left map].
  - exists ns. cbn. repeat split; auto; lra.
  - inversion HC as [|? ? C1 C2]; subst. inversion HF as [|? ? F1 F2]; subst.
    destruct (compute_step ns l HP C1 F1 g) as [n1 [E1 [P1 [L1 [M1 S1]]]]]. rewrite E1.
    destruct (IH n1 g P1) as [n2 [E2 [P2 [L2 [M2 S2]]]]]; [now rewrite L1|now rewrite M1|].
    exists n2. split; [exact E2|]. split; [exact P2|]. split; [congruence|]. split; [congruence|].
    rewrite S2, S1, M1. cbn. fold (rsum (map (amount (map n_content ns)) ls)). lra.
Qed.

Lemma transport_step ns (l : fcond R) g : Forall (primed k) ns -> closed (length ns) l -> clear_flux (map n_content ns) l ->
  exists ns', transport_flows sqrt (length ns) (ns ++ [g]) l = Some (ns' ++ [g]) /\ Forall (primed k) ns' /\
    length ns' = length ns /\ map n_content ns' = map n_content ns /\
    rsum (map G ns') = rsum (map G ns) + amount (map n_content ns) l.
Proof.
  intros HP [C1 C2] HF. pose proof Reps_pos as EP. pose proof Reps_small as ES.
  assert (PORT : forall w : R, source_port (length ns) l w = if Rlt_dec w 0 then k_to l else k_from l).
  { intro w. unfold source_port. replace (k_to l =? length ns)%nat with false by (symmetry; apply Nat.eqb_neq; lia).
    replace (k_from l =? length ns)%nat with false by (symmetry; apply Nat.eqb_neq; lia).
    rewrite andb_false_r, orb_false_r, andb_true_r. rnum. unfold Rltb. destruct (Rlt_dec w 0); reflexivity. }
  unfold transport_flows. rewrite PORT.
  assert (EE : (eps100 : R) = 100 * Reps).
  { unfold eps100. rnum. reflexivity. }
  unfold clear_flux in HF. unfold amount. generalize dependent (cond_flux l). intros x HF.
  destruct HF as [E|[c [E1 [E2 [E3 E4]]]]].
  - subst x. destruct (Rlt_dec 0 0); [lra|].
    destruct (nth_some ns (k_from l) C1) as [s HS]. rewrite nth_error_app1, HS by assumption.
    replace (0 *~ f_mw (n_outflow s)) with 0 by (rnum; ring). rewrite PORT. destruct (Rlt_dec 0 0); [lra|].
    rewrite nth_error_app1, HS by assumption. rewrite EE. rnum.
    destruct (Rltb_spec (100 * Reps) 0); [lra|]. destruct (Rltb_spec 0 (- (100 * Reps))); [lra|].
    exists ns. split; [reflexivity|]. split; [exact HP|]. do 2 (split; [reflexivity|]).
    destruct (nth_error (map n_content ns) (k_to l)); rewrite ?Rabs_R0; lra.
  - rewrite E1. rewrite nth_error_map in E1. destruct (Rlt_dec 0 x) as [HX|HX].
    + rewrite Rabs_right in * by lra. destruct (Rlt_dec x 0); [lra|].
      destruct (nth_error ns (k_from l)) as [s|] eqn:HS; [|discriminate]. cbn [option_map] in E1. injection E1 as E1.
      pose proof (forall_nth _ _ _ _ HP HS) as PS.
      rewrite nth_error_app1, HS, (pr_mw _ _ PS), E1 by assumption.
      replace (x *~ f_mw c) with (x * f_mw c) by reflexivity. set (w := x * f_mw c) in *.
      rewrite PORT. destruct (Rlt_dec w 0); [lra|]. rewrite nth_error_app1, HS, EE by assumption.
      replace (100 * Reps <~ w) with true by (rnum; destruct (Rltb_spec (100 * Reps) w); [reflexivity|lra]).
      rewrite !upd_eq. rewrite (upd_app (k_from l)) by assumption. rewrite upd_app by (rewrite upd_length; assumption).
      eexists. split; [reflexivity|].
      assert (P1 : Forall (primed k) (upd' (k_from l) (fun n => collect_outflux n w) ns)).
      { apply upd_forall; [exact HP|]. intros a Ha. apply (primed_eq k a); auto. }
      assert (HX' : forall d, In d (f_cs (n_content s)) -> c_x d = 0 \/ Reps * Reps <= w * c_x d) by (rewrite E1; exact E4).
      assert (HWE : Reps <= w) by lra.
      split; [|split; [rewrite !upd_length; reflexivity|split]].
      * apply upd_forall; [exact P1|]. intros a Ha. now apply (influx_primed k a s w).
      * rewrite upd_map by reflexivity. now apply upd_map.
      * destruct (nth_some (upd' (k_from l) (fun n => collect_outflux n w) ns) (k_to l)) as [t HT]; [now rewrite upd_length|].
        rewrite (upd_sum G _ _ _ t HT), (upd_sum G _ _ _ s HS), G_out.
        rewrite (G_in t s w (forall_nth _ _ _ _ P1 HT) PS HWE HX'), E1. ring.
    + rewrite Rabs_left1 in * by lra. destruct (Rlt_dec x 0); [|lra].
      destruct (nth_error ns (k_to l)) as [s|] eqn:HS; [|discriminate]. cbn [option_map] in E1. injection E1 as E1.
      pose proof (forall_nth _ _ _ _ HP HS) as PS.
      rewrite nth_error_app1, HS, (pr_mw _ _ PS), E1 by assumption.
      replace (x *~ f_mw c) with (- (- x * f_mw c)) by (rnum; ring). set (w := - x * f_mw c) in *.
      rewrite PORT. destruct (Rlt_dec (- w) 0); [|lra]. rewrite nth_error_app1, HS, EE by assumption.
      replace (100 * Reps <~ - w) with false by (rnum; destruct (Rltb_spec (100 * Reps) (- w)); [lra|reflexivity]).
      replace (- w <~ nopp (100 * Reps)) with true by (rnum; destruct (Rltb_spec (- w) (- (100 * Reps))); [reflexivity|lra]).
      replace (nopp (- w)) with w by (rnum; ring).
      rewrite !upd_eq. rewrite (upd_app (k_to l)) by assumption. rewrite upd_app by (rewrite upd_length; assumption).
      eexists. split; [reflexivity|].
      assert (P1 : Forall (primed k) (upd' (k_to l) (fun n => collect_outflux n w) ns)).
      { apply upd_forall; [exact HP|]. intros a Ha. apply (primed_eq k a); auto. }
      assert (HX' : forall d, In d (f_cs (n_content s)) -> c_x d = 0 \/ Reps * Reps <= w * c_x d) by (rewrite E1; exact E4).
      assert (HWE : Reps <= w) by lra.
      split; [|split; [rewrite !upd_length; reflexivity|split]].
      * apply upd_forall; [exact P1|]. intros a Ha. now apply (influx_primed k a s w).
      * rewrite upd_map by reflexivity. now apply upd_map.
      * destruct (nth_some (upd' (k_to l) (fun n => collect_outflux n w) ns) (k_from l)) as [t HT]; [now rewrite upd_length|].
        rewrite (upd_sum G _ _ _ t HT), (upd_sum G _ _ _ s HS), G_out.
        rewrite (G_in t s w (forall_nth _ _ _ _ P1 HT) PS HWE HX'), E1. ring.
Qed.

Lemma transport_closed ls : forall ns g, Forall (primed k) ns -> Forall (closed (length ns)) ls ->
  Forall (clear_flux (map n_content ns)) ls ->
  exists ns', transport_all sqrt (length ns) (ns ++ [g]) ls = Some (ns' ++ [g]) /\ Forall (primed k) ns' /\
    length ns' = length ns /\ map n_content ns' = map n_content ns /\
    rsum (map G ns') = rsum (map G ns) + rsum (map (amount (map n_content ns)) ls).
Proof.
  induction ls as [|l ls IH]; intros ns g HP HC HF; cbn [transport_all map].
  - exists ns. cbn. repeat split; auto; lra.
  - inversion HC as [|? ? C1 C2]; subst. inversion HF as [|? ? F1 F2]; subst.
    destruct (transport_step ns l g HP C1 F1) as [n1 [E1 [P1 [L1 [M1 S1]]]]]. rewrite E1.
    destruct (IH n1 g P1) as [n2 [E2 [P2 [L2 [M2 S2]]]]]; [now rewrite L1|now rewrite M1|].
    rewrite <- L1. exists n2. split; [exact E2|]. split; [exact P2|]. split; [congruence|]. split; [congruence|].
    rewrite S2, S1, M1. cbn. fold (rsum (map (amount (map n_content ns)) ls)). lra.
Qed.
End LEDGER.

(** ** The ledgers *)
Definition ledger_mass (n : fnode R) : R := n_in n - taken n.
Definition ledger_energy (n : fnode R) : R := n_heat n - taken n * f_h (n_content n).
Definition xnth (i : nat) (c : fluid R) : R := nth i (map c_x (f_cs c)) 0.
Definition ledger_species (i : nat) (n : fnode R) : R :=
  nth i (species_flow (n_inflow n)) 0 - taken n * xnth i (n_content n).

Lemma nth_padd l : forall m i, length l = length m -> nth i (padd l m) 0 = nth i l 0 + nth i m 0.
Proof.
  unfold padd. induction l as [|x l IH]; intros [|y m] [|i] H; try discriminate; cbn [combine map nth fst snd]; try lra.
  apply IH. now injection H.
Qed.
Lemma nth_scale w l i : nth i (map (fun c : const R => w * c_x c) l) 0 = w * nth i (map c_x l) 0.
Proof. revert i. induction l as [|c l IH]; intros [|i]; cbn [map nth]; try lra; apply IH. Qed.

Section CLOSED.
Variable k : list (nat * props R).

Lemma in_mass : forall n s w, primed k n -> primed k s -> Reps <= w ->
  (forall d, In d (f_cs (n_content s)) -> c_x d = 0 \/ Reps * Reps <= w * c_x d) ->
  ledger_mass (collect_influx sqrt n w (n_outflow s)) = ledger_mass n + w * 1.
Proof. intros n s w _ _ _ _. unfold ledger_mass, taken. cbn [collect_influx n_in n_sched n_content]. rnum. ring. Qed.
Lemma in_energy : forall n s w, primed k n -> primed k s -> Reps <= w ->
  (forall d, In d (f_cs (n_content s)) -> c_x d = 0 \/ Reps * Reps <= w * c_x d) ->
  ledger_energy (collect_influx sqrt n w (n_outflow s)) = ledger_energy n + w * f_h (n_content s).
Proof.
  intros n s w _ HS _ _. unfold ledger_energy, taken. cbn [collect_influx n_heat n_sched n_content].
  rewrite (pr_h _ _ HS). rnum. ring.
Qed.
Lemma in_species i : forall n s w, primed k n -> primed k s -> Reps <= w ->
  (forall d, In d (f_cs (n_content s)) -> c_x d = 0 \/ Reps * Reps <= w * c_x d) ->
  ledger_species i (collect_influx sqrt n w (n_outflow s)) = ledger_species i n + w * xnth i (n_content s).
Proof.
  intros n s w HN HS HW HX. destruct (influx_primed k n s w HN HS HW HX) as [_ [_ [E _]]].
  unfold ledger_species. rewrite E, nth_padd.
  - unfold xnth, taken. cbn [collect_influx n_sched n_content]. rewrite nth_scale. ring.
  - unfold species_flow. rewrite !map_length. transitivity (length (f_cs (n_content n))).
    + apply kind_length. apply HN.
    + apply kind_length. rewrite (pr_kind _ _ HN), (pr_kind _ _ HS). reflexivity.
Qed.

(** Node by node what resetting and the new pressures do. *)
Lemma reset_all ns : forall ps, length ps = length ns -> Forall (well k) ns ->
  exists ns0, all_ok (map reset_flows ns) = Ok ns0 /\
    let ns1 := zip_with set_potential ns0 ps in
    length ns0 = length ns /\ length ns1 = length ns /\ Forall (primed k) ns1 /\
    map n_content ns1 = map (fun q => set_pressure (n_content (fst q)) (snd q)) (combine ns ps) /\
    map n_vol ns1 = map n_vol ns /\ map n_dampmass ns1 = map n_dampmass ns /\ map n_expsf ns1 = map n_expsf ns /\
    rsum (map ledger_mass ns1) = 0 /\ rsum (map ledger_energy ns1) = 0 /\
    forall i, rsum (map (ledger_species i) ns1) = 0.
Proof.
  induction ns as [|n ns IH]; intros [|p ps] HL HW; try discriminate.
  - exists []. split; [reflexivity|]. cbn. repeat split; constructor.
  - inversion HW as [|? ? W1 W2]; subst. destruct (IH ps) as [ns0 [E [L0 [L1 [P [C [V [D [X [S1 [S2 S3]]]]]]]]]]]; [now injection HL|exact W2|].
    destruct (reset_primed k n p W1) as [n1 [E1 [P1 [C1 [I1 [Q1 [H1 [F1 [V1 [D1 X1]]]]]]]]]].
    exists (n1 :: ns0). cbn [map all_ok]. rewrite E1, E. split; [reflexivity|]. cbn zeta.
    assert (EZ : zip_with set_potential (n1 :: ns0) (p :: ps) = set_potential n1 p :: zip_with set_potential ns0 ps) by reflexivity.
    rewrite EZ. cbn [map combine fst snd length]. rewrite C1, C, V, D, X.
    repeat (split; [solve [auto | f_equal; assumption | constructor; assumption]|]).
    assert (TK : taken (set_potential n1 p) = 0) by (unfold taken; cbn [set_potential n_sched n_content]; rewrite Q1; ring).
    split; [|split]; [| |intro i]; cbn [rsum fold_right map].
    + fold (rsum (map ledger_mass (zip_with set_potential ns0 ps))). rewrite S1. unfold ledger_mass at 1. rewrite TK.
      cbn [set_potential n_in]. rewrite I1. ring.
    + fold (rsum (map ledger_energy (zip_with set_potential ns0 ps))). rewrite S2. unfold ledger_energy at 1. rewrite TK.
      cbn [set_potential n_heat]. rewrite H1. ring.
    + fold (rsum (map (ledger_species i) (zip_with set_potential ns0 ps))). rewrite S3. unfold ledger_species at 1. rewrite TK.
      cbn [set_potential n_inflow].
      assert (E0 : nth i (species_flow (n_inflow n1)) 0 = 0).
      { clear - F1. revert i. induction F1 as [|x l Hx _ IH]; intros [|i]; cbn; auto. }
      rewrite E0. ring.
Qed.

(** The state of the nodes when the links are done. *)
Theorem C115_flows : forall ns g ps pg ls, length ps = length ns ->
  Forall (well k) ns -> well k g ->
  Forall (closed (length ns)) ls -> Forall (clear_flux (map n_content ns)) ls ->
  exists mid g', before_integration sqrt (ns ++ [g]) (ps ++ [pg]) ls = Ok (mid ++ [g']) /\
    length mid = length ns /\ Forall (primed k) mid /\
    map n_content mid = map (fun q => set_pressure (n_content (fst q)) (snd q)) (combine ns ps) /\
    n_content g' = set_pressure (n_content g) pg /\ n_in g' = 0 /\ n_sched g' = 0 /\
    rsum (map n_in mid) = rsum (map taken mid) /\
    rsum (map n_heat mid) = rsum (map (fun n => taken n * f_h (n_content n)) mid) /\
    forall i, rsum (map (fun n => nth i (species_flow (n_inflow n)) 0) mid) =
              rsum (map (fun n => taken n * xnth i (n_content n)) mid).
Proof.
  intros ns g ps pg ls HL HW HG HC HF.
  destruct (reset_all ns ps HL HW) as [ns0 [E0 [L0 [L1 [P1 [C1 [_ [_ [_ [S1 [S2 S3]]]]]]]]]]].
  destruct (reset_primed k g pg HG) as [g0 [EG [PG [CG [IG [QG _]]]]]].
  set (ns1 := zip_with set_potential ns0 ps) in *.
  assert (EA : all_ok (map reset_flows (ns ++ [g])) = Ok (ns0 ++ [g0])).
  { clear - E0 EG. revert ns0 E0. induction ns as [|n ns IH]; intros ns0 E0; cbn [app map all_ok] in *.
    - injection E0 as <-. rewrite EG. reflexivity.
    - destruct (reset_flows n); try discriminate. destruct (all_ok (map reset_flows ns)) as [r| |]; try discriminate.
      injection E0 as <-. rewrite (IH r eq_refl). reflexivity. }
  assert (EZ : zip_with set_potential (ns0 ++ [g0]) (ps ++ [pg]) = ns1 ++ [set_potential g0 pg]).
  { unfold ns1, zip_with. clear - HL L0. assert (H : length ns0 = length ps) by congruence. clear HL L0. revert ps H.
    induction ns0 as [|n l IH]; intros [|p ps] H; try discriminate; [reflexivity|]. cbn. f_equal. apply IH. now injection H. }
  assert (HF1 : Forall (clear_flux (map n_content ns1)) ls).
  { rewrite C1. clear - HF HL. rewrite Forall_forall in *. intros l Hl. destruct (HF l Hl) as [E|[c [E R]]]; [now left|right].
    rewrite nth_error_map in E. destruct (nth_error ns _) as [n|] eqn:EN; [|discriminate]. injection E as <-.
    assert (HP : exists p, nth_error (combine ns ps) (if Rlt_dec 0 (cond_flux l) then k_from l else k_to l) = Some (n, p)).
    { clear - EN HL. revert EN. generalize (if Rlt_dec 0 (cond_flux l) then k_from l else k_to l). revert ps HL.
      induction ns as [|a ns IH]; intros [|p ps] HL [|i] EN; try discriminate; cbn in *; [injection EN as ->; now exists p|].
      apply IH; [lia|exact EN]. }
    destruct HP as [p Hp]. exists (set_pressure (n_content n) p). split; [|exact R]. rewrite nth_error_map, Hp. reflexivity. }
  assert (HC1 : Forall (closed (length ns1)) ls) by (rewrite L1; exact HC).
  assert (RUN : forall (phi : fluid R -> R) (G : fnode R -> R),
    (forall n x, G (schedule_outflux n x) = G n - x * f_mw (n_content n) * phi (n_content n)) ->
    (forall n w, G (collect_outflux n w) = G n) ->
    (forall n s w, primed k n -> primed k s -> Reps <= w ->
      (forall d, In d (f_cs (n_content s)) -> c_x d = 0 \/ Reps * Reps <= w * c_x d) ->
      G (collect_influx sqrt n w (n_outflow s)) = G n + w * phi (n_content s)) ->
    exists mid, before_integration sqrt (ns ++ [g]) (ps ++ [pg]) ls = Ok (mid ++ [set_potential g0 pg]) /\
      length mid = length ns1 /\ Forall (primed k) mid /\ map n_content mid = map n_content ns1 /\
      rsum (map G mid) = rsum (map G ns1)).
  { intros phi G A1 A2 A3.
    destruct (compute_all k phi G A1 ls ns1 (set_potential g0 pg) P1 HC1 HF1) as [n2 [F1 [F2 [F3 [F4 F5]]]]].
    destruct (transport_closed k phi G A2 A3 ls n2 (set_potential g0 pg) F2) as [n3 [T1 [T2 [T3 [T4 T5]]]]];
      [now rewrite F3|now rewrite F4|].
    exists n3. unfold before_integration. rewrite EA. cbn [obind]. rewrite EZ, F1.
    replace (length (ns1 ++ [set_potential g0 pg]) - 1)%nat with (length n2) by (rewrite app_length; cbn; lia).
    rewrite T1. split; [reflexivity|]. split; [congruence|]. split; [exact T2|]. split; [congruence|].
    rewrite T5, F5, F4. ring. }
  destruct (RUN (fun _ => 1) ledger_mass) as [mid [M1 [M2 [M3 [M4 M5]]]]].
  { intros. unfold ledger_mass, taken. cbn [schedule_outflux n_in n_sched n_content]. rnum. ring. }
  { reflexivity. } { exact in_mass. }
  exists mid, (set_potential g0 pg). split; [exact M1|]. split; [congruence|]. split; [exact M3|].
  split; [congruence|]. split; [exact CG|]. split; [exact IG|]. split; [exact QG|].
  assert (SUB : forall (f h : fnode R -> R) l, rsum (map (fun n => f n - h n) l) = 0 -> rsum (map f l) = rsum (map h l)).
  { intros f h l H. assert (E : rsum (map (fun n => f n - h n) l) = rsum (map f l) - rsum (map h l)).
    { clear H. induction l as [|a l IH]; cbn [map rsum fold_right] in *; [ring|]. unfold rsum in *. rewrite IH. ring. }
    lra. }
  split; [apply SUB; change (rsum (map ledger_mass mid) = 0); congruence|]. split.
  - destruct (RUN f_h ledger_energy) as [mid2 [N1 [_ [_ [_ N5]]]]].
    { intros. unfold ledger_energy, taken. cbn [schedule_outflux n_heat n_sched n_content]. rnum. ring. }
    { reflexivity. } { exact in_energy. }
    rewrite M1 in N1. injection N1 as N1. apply app_inj_tail in N1. destruct N1 as [<- _].
    apply SUB. change (rsum (map ledger_energy mid) = 0). congruence.
  - intro i. destruct (RUN (xnth i) (ledger_species i)) as [mid2 [N1 [_ [_ [_ N5]]]]].
    { intros. unfold ledger_species, taken. cbn [schedule_outflux n_inflow n_sched n_content]. rnum. ring. }
    { reflexivity. } { exact (in_species i). }
    rewrite M1 in N1. injection N1 as N1. apply app_inj_tail in N1. destruct N1 as [<- _].
    apply SUB. change (rsum (map (ledger_species i) mid) = 0). now rewrite N5.
Qed.
End CLOSED.

Lemma all_ok_map {A B} (f : A -> outcome B) (l : list A) (P : A -> B -> Prop) :
  (forall a, In a l -> exists b, f a = Ok b /\ P a b) ->
  exists r, all_ok (map f l) = Ok r /\ Forall2 P l r /\ Forall2 (fun a b => f a = Ok b) l r.
Proof.
  induction l as [|a l IH]; intro H; [exists []; repeat constructor|]. cbn [map all_ok].
  destruct (H a (or_introl eq_refl)) as [b [E Hb]]. destruct IH as [r [Er [H1 H2]]]; [intros; apply H; now right|].
  exists (b :: r). rewrite E, Er. repeat constructor; auto.
Qed.
Lemma rsum_two {A B} (f : A -> R) (h : B -> R) (d : R) (q : A -> R) l m :
  Forall2 (fun a b => h b = f a + d * q a) l m -> rsum (map h m) = rsum (map f l) + d * rsum (map q l).
Proof.
  induction 1 as [|a b l m H _ IH]; cbn [map rsum fold_right]; [lra|]. unfold rsum in *. rewrite IH, H. lra.
Qed.
Lemma forall2_impl {A B} (P Q : A -> B -> Prop) l m : Forall2 P l m -> (forall a b, In a l -> P a b -> Q a b) -> Forall2 Q l m.
Proof.
  induction 1 as [|a b l m H HF IH]; intro HI; constructor; [apply HI; [now left|exact H]|].
  apply IH. intros x y Hx. apply HI. now right.
Qed.
Lemma forall2_and {A B} (P Q : A -> B -> Prop) l m : Forall2 P l m -> Forall2 Q l m -> Forall2 (fun a b => P a b /\ Q a b) l m.
Proof. induction 1; intro H2; inversion H2; subst; constructor; auto. Qed.
Lemma nth_species n dt i : sound n ->
  nth i (species_after n dt) 0 = nth i (map c_mass (f_cs (n_content n))) 0 + dt * ledger_species i n.
Proof.
  intros HS. unfold ledger_species, xnth, species_after, species_flow.
  pose proof (kind_length _ _ (so_in _ HS)) as HL. pose proof (str_flow _ (so_inflow _ HS)) as HF.
  rewrite (so_rate _ HS) in HF. revert i HL HF. generalize (taken n), (n_in n).
  generalize (f_cs (n_content n)) (f_cs (n_inflow n)). intros l m tk win i.
  revert m i. induction l as [|c l IH]; intros [|d m] [|i] HL HF; try discriminate; cbn [combine map nth fst snd]; try ring.
  - rewrite (HF d (or_introl eq_refl)). ring.
  - apply IH; [now injection HL|]. intros e He. apply HF. now right.
Qed.

(** A closed network keeps its mass, each of its species and its energy. *)
Theorem C115_conserved : forall k pw ns g ps pg ls dt mid g', 0 < dt -> length ps = length ns ->
  Forall (well k) ns -> well k g ->
  Forall (closed (length ns)) ls -> Forall (clear_flux (map n_content ns)) ls ->
  before_integration sqrt (ns ++ [g]) (ps ++ [pg]) ls = Ok (mid ++ [g']) ->
  Forall (fun n => 0 < n_vol n /\ calm n dt) mid ->
  exists ns', flow_pass sqrt pw (ns ++ [g]) (ps ++ [pg]) ls dt = Ok (ns' ++ [g']) /\
    Forall (well k) ns' /\ length ns' = length ns /\
    tmass ns' = tmass ns /\ (forall i, tspecies i ns' = tspecies i ns) /\
    n_content g' = set_pressure (n_content g) pg /\
    (Reps < dt -> Forall2 (plain dt) mid ns' -> tenergy ns' = tenergy ns).
Proof.
  intros k pw ns g ps pg ls dt mid g' HD HL HW HG HC HF EB HM.
  destruct (C115_flows k ns g ps pg ls HL HW HG HC HF) as [mid2 [g2 [E2 [L2 [P2 [C2 [G2 [_ [_ [S1 [S2 S3]]]]]]]]]]].
  rewrite EB in E2. injection E2 as E2. apply app_inj_tail in E2. destruct E2 as [<- <-].
  destruct (all_ok_map (fun n => integrate_flows sqrt pw n dt) mid (fun n n' =>
     well k n' /\ f_mass (n_content n') = f_mass (n_content n) + dt * ledger_mass n /\
     (forall i, nth i (map c_mass (f_cs (n_content n'))) 0 = nth i (map c_mass (f_cs (n_content n))) 0 + dt * ledger_species i n)))
    as [ns' [EI [H1 H2]]].
  { intros n Hn. rewrite Forall_forall in HM, P2. destruct (HM n Hn) as [HV HCa]. pose proof (P2 n Hn) as PN.
    destruct (C113_balance pw n dt HD HV (pr_sound _ _ PN) HCa) as
      [n' [EI [SN [KN [MN [SP [_ [_ [_ [_ [_ [_ [_ [OS _]]]]]]]]]]]]]].
    exists n'. split; [exact EI|]. split; [|split].
    - constructor.
      + apply SN.
      + apply SN.
      + rewrite KN. apply PN.
      + rewrite (so_in _ SN), KN. apply PN.
      + rewrite (so_out _ SN), KN. apply PN.
    - rewrite MN. unfold ledger_mass, taken. ring.
    - intro i. rewrite SP. apply nth_species. apply PN. }
  assert (LE : length (mid ++ [g']) = S (length mid)) by (rewrite app_length; cbn; lia).
  exists ns'. split.
  { unfold flow_pass. rewrite EB. cbn [obind]. rewrite removelast_last, EI. cbn [obind].
    replace (length (mid ++ [g']) - 1)%nat with (length mid) by lia. rewrite skipn_app, skipn_all, Nat.sub_diag. reflexivity. }
  assert (L3 : length mid = length ns') by (clear - H1; induction H1; cbn; congruence).
  split. { clear - H1. induction H1; constructor; tauto. }
  split; [congruence|].
  assert (KEEP : forall h : fluid R -> R, (forall c p, h (set_pressure c p) = h c) ->
    rsum (map (fun n => h (n_content n)) mid) = rsum (map (fun n => h (n_content n)) ns)).
  { intros h Hh. rewrite <- !(map_map n_content h), C2, !map_map. f_equal. clear - Hh HL. revert ps HL.
    induction ns as [|n ns IH]; intros [|p ps] HL; try discriminate; [reflexivity|]. cbn [combine map fst snd].
    rewrite Hh. f_equal. apply IH. now injection HL. }
  assert (Z : forall f h : fnode R -> R, rsum (map f mid) = rsum (map h mid) -> rsum (map (fun n => f n - h n) mid) = 0).
  { intros f h H. assert (E : rsum (map (fun n => f n - h n) mid) = rsum (map f mid) - rsum (map h mid)).
    { clear. induction mid as [|a l IH]; cbn [map rsum fold_right] in *; [ring|]. unfold rsum in *. rewrite IH. ring. }
    lra. }
  split; [|split; [|split; [exact G2|]]].
  - unfold tmass. rewrite (rsum_two (fun n => f_mass (n_content n)) _ dt ledger_mass mid ns').
    + rewrite (KEEP f_mass) by reflexivity. change ledger_mass with (fun n => n_in n - taken n). rewrite Z by exact S1. ring.
    + apply (forall2_impl _ _ _ _ H1). intros a b _ H. apply H.
  - intro i. unfold tspecies. rewrite (rsum_two (fun n => nth i (map c_mass (f_cs (n_content n))) 0) _ dt (ledger_species i) mid ns').
    + rewrite (KEEP (fun c => nth i (map c_mass (f_cs c)) 0)) by reflexivity. unfold ledger_species. rewrite Z by apply S3. ring.
    + apply (forall2_impl _ _ _ _ H1). intros a b _ H. apply H.
  - intros HDT HP. unfold tenergy.
    rewrite (rsum_two (fun n => f_mass (n_content n) * f_h (n_content n)) _ dt ledger_energy mid ns').
    + rewrite (KEEP (fun c => f_mass c * f_h c)) by reflexivity.
      change ledger_energy with (fun n => n_heat n - taken n * f_h (n_content n)). rewrite Z by exact S2. ring.
    + apply (forall2_impl _ _ _ _ (forall2_and _ _ _ _ HP H2)). intros n n' Hn [PL EN].
      rewrite Forall_forall in HM, P2. destruct (HM n Hn) as [HV HCa]. pose proof (P2 n Hn) as PN.
      destruct PL as [Q1 Q2 Q3 Q4 Q5 Q6 Q7].
      assert (D0 : damped n (n_content n') dt = 0) by (unfold damped; destruct (Rlt_dec 0 (n_dampmass n)); [lra|reflexivity]).
      assert (X0 : expansion pw n = 0).
      { unfold expansion. rewrite Q2. destruct (f_phase _) as [[|]|]; try reflexivity.
        destruct (Rlt_dec _ _); [|reflexivity]. destruct (Rlt_dec _ _); [|reflexivity]. destruct (Rlt_dec _ _); ring. }
      destruct (C114_energy pw n dt n' HD HV (pr_sound _ _ PN) HCa HDT Q3 EN Q4 Q5 Q6) as [E _].
      { rewrite D0, X0. cbn zeta in Q7. replace (energy_after n dt - 0 + _ * 0 * _) with (energy_after n dt) by ring. exact Q7. }
      rewrite E, D0, X0. unfold energy_after, ledger_energy. ring.
Qed.

(** ** An example: a conductor moves a kilogram from one node to another in a second *)
Definition exE : fluid R := set_temperature exR 300.
Definition exN : fnode R := mkfnode exE exE exE 1 1 0 0 0 0 0 0 0 100 300 0 0 1 0 0 0 0 0.
Definition exK : list (nat * props R) := [(0%nat, heR); (1%nat, h2R)].
Definition exL : fcond R := mkfcond 0 1 (3 / 800) 200 100.

Example exE_balanced : balanced exE /\ real_types exE.
Proof.
  split; [apply (C109_keep exR exR_types exR_balanced)|].
  unfold real_types, exE, set_temperature. cbn [f_cs]. repeat constructor; cbn; lra.
Qed.
Example exN_well : well exK exN.
Proof. destruct exE_balanced as [B T]. constructor; try assumption; reflexivity. Qed.
Lemma exE_h : f_h exE = 2854500.
Proof.
  destruct exR_heat as [A [_ [_ D]]]. destruct (C110_set_temperature exR 300 D) as [E _].
  unfold exE. rewrite E, (compute_h_R _ _ A). pose proof half_big.
  unfold heat_a, heat_b, total, rsum. cbn. destruct (Rlt_dec Reps (Rabs (1 / 2))); [|contradiction]. lra.
Qed.
Lemma exL_flux : cond_flux exL = 3 / 8.
Proof.
  pose proof Reps_small. pose proof Reps_pos. unfold cond_flux. cbn [exL k_p0 k_p1 k_adm].
  assert (EE : (eps100 : R) = 100 * Reps) by (unfold eps100; rnum; reflexivity). rewrite EE.
  unfold nmax. rnum. destruct (Rltb_spec 200 100); [lra|]. rewrite Rabs_right by lra.
  destruct (Rltb_spec (200 - 100) (200 * (100 * Reps))); [lra|]. lra.
Qed.
Example exL_clear : closed 2 exL /\ clear_flux (map n_content [exN; exN]) exL.
Proof.
  pose proof Reps_small. pose proof Reps_pos. split; [split; cbn; lia|]. right. exists exE. rewrite exL_flux.
  destruct (Rlt_dec 0 (3 / 8)); [|lra]. split; [reflexivity|]. rewrite Rabs_right by lra.
  change (f_mw exE) with (8 / 3). split; [lra|]. split; [lra|].
  unfold exE, set_temperature. cbn [f_cs]. intros d Hd. cbn in Hd. destruct Hd as [<-|[<-|[]]]; cbn; right; nra.
Qed.

(** What the two nodes are like when the links are done. *)
Example exN_mid : exists a b g, before_integration sqrt ([exN; exN] ++ [exN]) ([200; 100] ++ [100]) [exL] = Ok ([a; b] ++ [g]) /\
  n_content a = set_pressure exE 200 /\ n_content b = set_pressure exE 100 /\
  n_sched a = 3 / 8 /\ n_in a = 0 /\ n_heat a = 0 /\ species_flow (n_inflow a) = [0; 0] /\
  n_sched b = 0 /\ n_in b = 1 /\ n_heat b = 2854500 /\ species_flow (n_inflow b) = [1 / 2; 1 / 2] /\
  n_vol a = 1 /\ n_vol b = 1 /\ n_dampmass a = 0 /\ n_dampmass b = 0 /\ n_expsf a = 0 /\ n_expsf b = 0 /\
  primed exK a /\ primed exK b.
Proof.
  pose proof Reps_small as ES. pose proof Reps_pos as EP.
  assert (ER : exists n1, reset_flows exN = Ok n1) by (destruct (reset_primed exK exN 0 exN_well) as [n1 [E _]]; now exists n1).
  destruct ER as [n1 ER].
  assert (PR : forall p, primed exK (set_potential n1 p) /\ n_content (set_potential n1 p) = set_pressure exE p /\
    n_in n1 = 0 /\ n_sched n1 = 0 /\ n_heat n1 = 0 /\ n_vol n1 = 1 /\ n_dampmass n1 = 0 /\ n_expsf n1 = 0 /\
    species_flow (n_inflow n1) = [0; 0]).
  { intro p. destruct (reset_primed exK exN p exN_well) as [n2 [E [H1 [H2 [H3 [H4 [H5 [H6 [H7 [H8 H9]]]]]]]]]].
    rewrite ER in E. injection E as <-. repeat (split; [assumption|]).
    assert (HL : length (f_cs (n_inflow n1)) = 2%nat).
    { pose proof (kind_length _ _ (so_in _ (pr_sound _ _ H1))) as HL. rewrite H2 in HL. exact HL. }
    revert HL H6. unfold species_flow. destruct (f_cs (n_inflow n1)) as [|c [|d [|]]]; try discriminate. intros _ H6.
    cbn [map] in H6 |- *. inversion H6 as [|? ? X1 X2]; subst. inversion X2; subst. congruence. }
  destruct (PR 200) as [P1 [C1 [I1 [Q1 [H1 [V1 [D1 [X1 F1]]]]]]]]. destruct (PR 100) as [P2 [C2 _]].
  set (na := schedule_outflux (set_potential n1 200) (3 / 8)).
  assert (PA : primed exK na) by (apply (primed_eq exK (set_potential n1 200)); auto).
  destruct (influx_primed exK (set_potential n1 100) na 1 P2 PA) as [P3 [C3 [F3 [H3 [I3 Q3]]]]]; [lra| |].
  { change (n_content na) with (n_content (set_potential n1 200)). rewrite C1.
    intros d Hd. cbn in Hd. destruct Hd as [<-|[<-|[]]]; cbn; right; nra. }
  exists (collect_outflux na 1), (collect_influx sqrt (set_potential n1 100) 1 (n_outflow na)), (set_potential n1 100).
  split.
  - unfold before_integration. cbn [app map all_ok]. rewrite ER. cbn [obind].
    change (zip_with set_potential [n1; n1; n1] [200; 100; 100])
      with [set_potential n1 200; set_potential n1 100; set_potential n1 100].
    cbn [fold_left length Nat.sub transport_all]. unfold compute_flows. rewrite exL_flux. cbn zeta.
    replace (neps <~ 3 / 8) with true by (rnum; destruct (Rltb_spec Reps (3 / 8)); [reflexivity|lra]).
    rewrite upd_eq. cbn [exL k_from upd']. fold na. unfold transport_flows. rewrite exL_flux.
    assert (SP : forall w, 0 <= w -> source_port 2 exL w = 0%nat).
    { intros w Hw. unfold source_port. cbn [exL k_to k_from Nat.eqb negb]. rewrite andb_false_r, orb_false_r.
      rnum. destruct (Rltb_spec w 0); [lra|reflexivity]. }
    rewrite SP by lra. cbn [nth_error]. rewrite (pr_mw _ _ PA).
    change (n_content na) with (n_content (set_potential n1 200)). rewrite C1. change (f_mw (set_pressure exE 200)) with (8 / 3).
    replace (3 / 8 *~ (8 / 3)) with 1 by (rnum; field). rewrite SP by lra. cbn [nth_error].
    assert (EE : (eps100 : R) = 100 * Reps) by (unfold eps100; rnum; reflexivity). rewrite EE.
    replace (100 * Reps <~ 1) with true by (rnum; destruct (Rltb_spec (100 * Reps) 1); [reflexivity|lra]).
    rewrite !upd_eq. reflexivity.
  - split; [exact C1|]. split; [rewrite C3; exact C2|].
    split; [cbn; rewrite Q1; lra|]. split; [exact I1|]. split; [exact H1|]. split; [exact F1|].
    split; [rewrite Q3; exact Q1|]. split; [rewrite I3; cbn; rewrite I1; lra|].
    split. { rewrite H3. change (n_content na) with (n_content (set_potential n1 200)). rewrite C1.
             change (f_h (set_pressure exE 200)) with (f_h exE). rewrite exE_h. cbn [set_potential n_heat]. rewrite H1. lra. }
    split. { rewrite F3. change (n_content na) with (n_content (set_potential n1 200)). rewrite C1.
             cbn [set_potential n_inflow]. rewrite F1. unfold padd. cbn. repeat (f_equal; try lra). }
    repeat (split; [assumption|]). split; [|exact P3]. apply (primed_eq exK na); auto.
Qed.

Lemma species_after_flow n dt : sound n ->
  species_after n dt = map (fun q => c_mass (fst q) + (snd q - taken n * c_x (fst q)) * dt)
                           (combine (f_cs (n_content n)) (species_flow (n_inflow n))).
Proof.
  intro HS. unfold species_after, species_flow.
  pose proof (kind_length _ _ (so_in _ HS)) as HL. pose proof (str_flow _ (so_inflow _ HS)) as HF.
  rewrite (so_rate _ HS) in HF. revert HL HF. generalize (taken n), (n_in n).
  generalize (f_cs (n_content n)) (f_cs (n_inflow n)). intros l m tk win.
  revert m. induction l as [|c l IH]; intros [|d m] HL HF; try discriminate; [reflexivity|].
  cbn [combine map fst snd]. f_equal.
  - rewrite (HF d (or_introl eq_refl)). ring.
  - apply IH; [now injection HL|]. intros e He. apply HF. now right.
Qed.

(** A node of the example whose mass has become [m] has the temperature it had. *)
Lemma exN_plain n n' (m : R) : sound n -> Reps < m -> map c_mass (f_cs (n_content n')) = [m / 2; m / 2] ->
  sound n' -> kind (n_content n') = exK -> f_mass (n_content n') = m -> n_dampmass n = 0 -> n_expsf n = 0 ->
  energy_after n 1 = m * 2854500 -> mass_after n 1 = m -> Reps <= m * 2854500 ->
  thermal_spec (fun _ _ => 0) n 1 (n_content n') (n_dampheat n') ->
  plain 1 n n' /\ f_t (n_content n') = 300.
Proof.
  intros HS HM HC HS' HK HF HD HX HE HA HE2 HT. pose proof Reps_pos as EP. pose proof eps_lt_flt as EF. pose proof half_big as HB.
  set (c' := n_content n') in *.
  pose proof (so_content _ HS' : balanced c') as B.
  assert (EX : exists a b, f_cs c' = [a; b] /\ c_x a = 1 / 2 /\ c_x b = 1 / 2 /\ c_pr a = heR /\ c_pr b = h2R).
  { unfold kind in HK. pose proof (bal_mass _ B) as BM. rewrite HF in BM.
    destruct (f_cs c') as [|a [|b [|]]]; try discriminate. exists a, b. cbn in HK, HC. injection HK as _ K1 _ K2.
    injection HC as M1 M2. pose proof (BM a ltac:(now left)). pose proof (BM b ltac:(right; now left)).
    split; [reflexivity|]. split; [nra|]. split; [nra|]. auto. }
  destruct EX as [a [b [EC [X1 [X2 [R1 R2]]]]]].
  assert (HA' : heat_a c' = 6500 /\ heat_b c' = 10 + / 20).
  { unfold heat_a, heat_b, total, rsum. rewrite EC. cbn [map fold_right]. rewrite X1, X2, R1, R2.
    destruct (Rlt_dec Reps (Rabs (1 / 2))); [|contradiction]. cbn. split; lra. }
  destruct HA' as [A1 A2].
  assert (IR : in_range c' 300).
  { unfold in_range. rewrite EC. repeat (apply Forall_cons || apply Forall_nil); rewrite ?R1, ?R2; cbn; intros _; lra. }
  assert (D0 : damped n c' 1 = 0) by (unfold damped; rewrite HD; destruct (Rlt_dec 0 0); [lra|reflexivity]).
  assert (X0 : expansion (fun _ _ => 0) n = 0).
  { unfold expansion. rewrite HX. destruct (f_phase _) as [[|]|]; try reflexivity.
    destruct (Rlt_dec _ _); [|reflexivity]. destruct (Rlt_dec _ _); [|reflexivity]. destruct (Rlt_dec _ _); ring. }
  assert (ET : f_t c' = 300).
  { destruct HT as [h [T1 [_ T3]]]. rewrite D0, X0, HE, HA in T3. assert (Eh : h = 2854500) by nra.
    rewrite T1, Eh. replace 2854500 with (compute_h c' 300) by (rewrite (compute_h_R _ _ IR), A1, A2; lra).
    apply C110_temperature; rewrite ?A1, ?A2; try lra. exact IR. }
  split; [|exact ET]. constructor; fold c'; try lra.
  - unfold no_traces. rewrite EC. pose proof (bal_frac _ B) as BF. rewrite EC in BF.
    pose proof (BF a ltac:(now left)) as Fa. pose proof (BF b ltac:(right; now left)) as Fb.
    rewrite X1, R1 in Fa. rewrite X2, R2 in Fb. cbn in Fa, Fb.
    pose proof (balanced_mw c' (so_types _ HS') B) as MW.
    repeat (apply Forall_cons || apply Forall_nil); right; rewrite ?X1, ?X2; (split; [exact HB|]); rewrite Rabs_right; lra.
  - rewrite ET. exact IR.
  - cbn zeta. rewrite HF, HE, A1, A2. replace (m * 2854500 / m) with 2854500 by (field; lra). lra.
Qed.

Example exN_run : exists a b g a' b',
  before_integration sqrt ([exN; exN] ++ [exN]) ([200; 100] ++ [100]) [exL] = Ok ([a; b] ++ [g]) /\
  Forall (fun n => 0 < n_vol n /\ calm n 1) [a; b] /\
  flow_pass sqrt (fun _ _ => 0) ([exN; exN] ++ [exN]) ([200; 100] ++ [100]) [exL] 1 = Ok ([a'; b'] ++ [g]) /\
  Forall2 (plain 1) [a; b] [a'; b'] /\
  f_mass (n_content a') = 7 /\ f_mass (n_content b') = 9 /\ f_t (n_content a') = 300 /\ f_t (n_content b') = 300 /\
  tmass [a'; b'] = 16 /\ tenergy [a'; b'] = 16 * 2854500.
Proof.
  pose proof Reps_small as ES. pose proof Reps_pos as EP.
  destruct exN_mid as [a [b [g [EM [CA [CB [QA [IA [HA [FA [QB [IB [HB [FB [VA [VB [DA [DB [XA [XB [PA PB]]]]]]]]]]]]]]]]]]]]].
  assert (TA : taken a = 1) by (unfold taken; rewrite QA, CA; change (f_mw (set_pressure exE 200)) with (8 / 3); field).
  assert (TB : taken b = 0) by (unfold taken; rewrite QB; ring).
  assert (MA : mass_after a 1 = 7) by (unfold mass_after; rewrite CA, IA, TA; cbn; lra).
  assert (MB : mass_after b 1 = 9) by (unfold mass_after; rewrite CB, IB, TB; cbn; lra).
  assert (SA : species_after a 1 = [7 / 2; 7 / 2]).
  { rewrite (species_after_flow _ _ (pr_sound _ _ PA)), FA, CA, TA. cbn. repeat (f_equal; try lra). }
  assert (SB : species_after b 1 = [9 / 2; 9 / 2]).
  { rewrite (species_after_flow _ _ (pr_sound _ _ PB)), FB, CB, TB. cbn. repeat (f_equal; try lra). }
  assert (EA : energy_after a 1 = 7 * 2854500).
  { unfold energy_after. rewrite CA, TA, HA. change (f_h (set_pressure exE 200)) with (f_h exE). rewrite exE_h. cbn. lra. }
  assert (EB : energy_after b 1 = 9 * 2854500).
  { unfold energy_after. rewrite CB, TB, HB. change (f_h (set_pressure exE 100)) with (f_h exE). rewrite exE_h. cbn. lra. }
  assert (KA : calm a 1).
  { constructor; rewrite ?QA, ?IA, ?MA, ?SA, ?TA; try lra.
    - rewrite CA. cbn. lra.
    - right. split; [lra|]. rewrite CA. intros d Hd. cbn in Hd. destruct Hd as [<-|[<-|[]]]; cbn; right; nra.
    - repeat (apply Forall_cons || apply Forall_nil); right; nra. }
  assert (KB : calm b 1).
  { constructor; rewrite ?QB, ?IB, ?MB, ?SB, ?TB; try lra.
    - rewrite CB. cbn. lra.
    - repeat (apply Forall_cons || apply Forall_nil); right; nra. }
  exists a, b, g.
  assert (RUN : forall n m, primed exK n -> n_vol n = 1 -> calm n 1 -> mass_after n 1 = m -> 1 <= m ->
    species_after n 1 = [m / 2; m / 2] -> energy_after n 1 = m * 2854500 -> n_dampmass n = 0 -> n_expsf n = 0 ->
    exists n', integrate_flows sqrt (fun _ _ => 0) n 1 = Ok n' /\ f_mass (n_content n') = m /\
      plain 1 n n' /\ f_t (n_content n') = 300).
  { intros n m PN VN KN MN M1 SN EN DN XN.
    destruct (C113_balance (fun _ _ => 0) n 1 ltac:(lra) ltac:(lra) (pr_sound _ _ PN) KN) as
      [n' [EI [S' [K' [M' [SP [_ [_ [_ [_ [_ [_ [_ [_ [_ [_ TH]]]]]]]]]]]]]]]].
    fold (taken n) in M'. fold (mass_after n 1) in M'.
    exists n'. split; [exact EI|]. split; [congruence|].
    apply (exN_plain n n' m); try assumption; try congruence; try lra.
    - apply PN.
    - rewrite K'. apply PN.
    - apply TH; lra. }
  destruct (RUN a 7 PA VA KA MA) as [a' [Ea [Ma [La Ta]]]]; try assumption; try lra.
  destruct (RUN b 9 PB VB KB MB) as [b' [Eb [Mb [Lb Tb]]]]; try assumption; try lra.
  exists a', b'. split; [exact EM|].
  assert (FC : Forall (fun n => 0 < n_vol n /\ calm n 1) [a; b]) by (repeat (apply Forall_cons || apply Forall_nil); (split; [lra|assumption])).
  split; [exact FC|].
  assert (FP : flow_pass sqrt (fun _ _ => 0) ([exN; exN] ++ [exN]) ([200; 100] ++ [100]) [exL] 1 = Ok ([a'; b'] ++ [g])).
  { unfold flow_pass. rewrite EM. cbn [obind app removelast map all_ok]. rewrite Ea, Eb. reflexivity. }
  split; [exact FP|]. split; [exact (Forall2_cons _ _ La (Forall2_cons _ _ Lb (Forall2_nil _)))|]. repeat (split; [assumption|]).
  destruct exL_clear as [L1 L2].
  destruct (C115_conserved exK (fun _ _ => 0) [exN; exN] exN [200; 100] 100 [exL] 1 [a; b] g) as [ns' [F1 [_ [_ [F2 [_ [_ F3]]]]]]].
  { lra. } { reflexivity. } { repeat (apply Forall_cons || apply Forall_nil); apply exN_well. } { apply exN_well. }
  { apply Forall_cons; [exact L1|apply Forall_nil]. } { apply Forall_cons; [exact L2|apply Forall_nil]. } { exact EM. } { exact FC. }
  rewrite FP in F1.
  assert (E : [a'; b'] = ns').
  { assert (E : [a'; b'] ++ [g] = ns' ++ [g]) by congruence. apply app_inj_tail in E. now destruct E. }
  subst ns'. split.
  - rewrite F2. unfold tmass, rsum. cbn. lra.
  - rewrite F3; [|lra|exact (Forall2_cons _ _ La (Forall2_cons _ _ Lb (Forall2_nil _)))]. unfold tenergy, rsum. cbn [map fold_right exN n_content].
    rewrite exE_h. cbn. lra.
Qed.

(** ** Where it is not so, in binary64 *)
Definition heliumF (t p m : float) : outcome (fluid float) := initialize [(0%nat, heF, (1)%float)] (mkfluidin t p n0 m).
Definition nodeF (c : fluid float) (v : float) : fnode float :=
  mkfnode c c c v v n0 n0 n0 n0 n0 n0 n0 (f_p c) (f_t c) n0 n0 n1 n0 n0 n0 n0 n0.
Definition passF (a b : fluid float) (pa pb adm : float) (dt : float) : outcome (float * float * float * float) :=
  obind (flow_pass PrimFloat.sqrt (fun x _ => x) [nodeF a n1; nodeF b n1; nodeF b n1] [pa; pb; pb]
                   [mkfcond 0 1 adm pa pb] dt)
    (fun r => match r with
              | [x; y; _] => Ok (f_mass (n_content x), f_mass (n_content y), f_t (n_content x), f_t (n_content y))
              | _ => Ub end).
(** A flow between the two thresholds leaves the one node and does not come to the other. *)
Theorem C115_deadband_refuted : exists c ma mb ta tb,
  heliumF (300)%float (100)%float (0.001)%float = Ok c /\
  passF c c (101)%float (100)%float (1e-15)%float (100)%float = Ok (ma, mb, ta, tb) /\
  (ma <~ f_mass c) = true /\ (mb ==~ f_mass c) = true.
Proof.
  match goal with |- exists c ma mb ta tb, ?l = _ /\ _ =>
    let F := eval vm_compute in l in
    match F with Ok ?F => exists F;
      let r := eval vm_compute in (passF F F (101)%float (100)%float (1e-15)%float (100)%float) in
      match r with Ok (?a, ?b, ?c, ?d) => exists a, b, c, d end end end.
  split; [vm_compute; reflexivity|]. split; [vm_compute; reflexivity|]. vm_compute. auto.
Qed.
(** More is scheduled to leave than there is: what the link carries is not cut, so that
    mass comes from nothing. *)
Theorem C115_overdraw_refuted : exists a b ma mb ta tb,
  heliumF (300)%float (200)%float (0.5)%float = Ok a /\ heliumF (300)%float (100)%float (1)%float = Ok b /\
  passF a b (200)%float (100)%float (0.01)%float (1)%float = Ok (ma, mb, ta, tb) /\
  ((5)%float <~ mb) = true /\ ((0)%float <~ ma) = true.
Proof.
  match goal with |- exists a b ma mb ta tb, ?l = _ /\ ?m = _ /\ _ =>
    let F := eval vm_compute in l in let G := eval vm_compute in m in
    match F with Ok ?F => match G with Ok ?G => exists F, G;
      let r := eval vm_compute in (passF F G (200)%float (100)%float (0.01)%float (1)%float) in
      match r with Ok (?a, ?b, ?c, ?d) => exists a, b, c, d end end end end.
  split; [vm_compute; reflexivity|]. split; [vm_compute; reflexivity|]. split; [vm_compute; reflexivity|]. vm_compute. auto.
Qed.
(** The node that was emptied is left with the threshold mass; taking it out in a longer
    step throws. *)
Theorem C113_throw_refuted : exists a b,
  heliumF (300)%float (200)%float (0x1p-52)%float = Ok a /\ heliumF (300)%float (100)%float (1)%float = Ok b /\
  passF a b (200)%float (100)%float (0.01)%float (2)%float = Throws.
Proof.
  match goal with |- exists a b, ?l = _ /\ ?m = _ /\ _ =>
    let F := eval vm_compute in l in let G := eval vm_compute in m in
    match F with Ok ?F => match G with Ok ?G => exists F, G end end end.
  split; [vm_compute; reflexivity|]. split; [vm_compute; reflexivity|]. vm_compute. reflexivity.
Qed.

Print Assumptions C115_flows.
Print Assumptions C115_conserved.
Print Assumptions C115_deadband_refuted.
Print Assumptions C115_overdraw_refuted.
Print Assumptions C113_throw_refuted.
