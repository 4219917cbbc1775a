(** C164: trace compounds. *)
From Coq Require Import Floats.
From Coq Require Import Reals Lra Lia List Arith Bool ZArith.
From Verif Require Import Num Ord MathUtil Props_Math Spec_Valve Props_Valve Props_Thermal FluidTrace.
Import ListNotations.
Local Open Scope R_scope.

(** The mass of a compound agrees with its mole fraction, which is no rounding error. *)
Definition settled (moles : R) (c : cell R) : Prop :=
  c_m c = c_x c * moles * c_w c /\ (c_x c = 0 \/ Reps <= c_x c).
(** What the cut-off makes of a mass: nothing is left of less than [eps] of the moles. *)
Definition kept (moles w m : R) : R := if Rlt_dec m (Reps * moles * w) then 0 else m.

Lemma settle_one (moles : R) (c : cell R) : 0 < moles -> 0 < c_w c ->
  let c' := cut_off (refraction moles c) in
  c_w c' = c_w c /\ c_m c' = kept moles (c_w c) (c_m c) /\ c_x c' = kept moles (c_w c) (c_m c) / moles / c_w c /\ settled moles c'.
Proof.
  intros M W. unfold refraction. change (n0 <~ moles) with (Rltb 0 moles). rewrite Rltb_true by exact M.
  cbv zeta. unfold cut_off. cbn [c_x c_w c_m].
  change (c_m c /~ moles /~ c_w c <~ neps) with (Rltb (c_m c / moles / c_w c) Reps). unfold kept.
  assert (E : c_m c / moles / c_w c < Reps <-> c_m c < Reps * moles * c_w c).
  { split; intro H.
    - apply (Rmult_lt_compat_r (moles * c_w c)) in H; [|nra]. replace (c_m c / moles / c_w c * (moles * c_w c)) with (c_m c) in H by (field; lra). lra.
    - apply (Rmult_lt_reg_r (moles * c_w c)); [nra|]. replace (c_m c / moles / c_w c * (moles * c_w c)) with (c_m c) by (field; lra). lra. }
  pose proof Reps_pos. destruct (Rltb_spec (c_m c / moles / c_w c) Reps) as [L|L], (Rlt_dec (c_m c) (Reps * moles * c_w c)) as [L'|L']; try tauto; unfold settled; cbn [c_x c_w c_m].
  - change (n0 : R) with 0. split; [reflexivity|]. split; [reflexivity|]. split; [field; lra|]. split; [ring|left; reflexivity].
  - change (c_m c /~ moles /~ c_w c) with (c_m c / moles / c_w c). split; [reflexivity|]. split; [reflexivity|]. split; [reflexivity|]. split; [field; lra|right; lra].
Qed.
Lemma fracs_map (moles : R) cs : update_fracs moles cs = map (fun c => cut_off (refraction moles c)) cs.
Proof. unfold update_fracs. apply map_map. Qed.
Lemma fracs_settled (moles : R) cs : 0 < moles -> Forall (fun c => 0 < c_w c) cs -> Forall (settled moles) (update_fracs moles cs).
Proof.
  intros M W. rewrite fracs_map. apply Forall_forall. intros c I. apply in_map_iff in I. destruct I as (d & <- & I).
  apply settle_one; [exact M|]. rewrite Forall_forall in W. apply W, I.
Qed.
Lemma settled_pos (moles : R) c : 0 < moles -> 0 < c_w c -> settled moles c -> 0 <= c_m c /\ 0 <= c_x c.
Proof.
  intros M W (E & X). pose proof Reps_pos. assert (P : 0 <= c_x c) by (destruct X; lra). split; [|exact P]. rewrite E. apply Rmult_le_pos; [apply Rmult_le_pos|]; lra.
Qed.
Lemma settled_eq (moles : R) c : 0 < moles -> 0 < c_w c -> settled moles c -> cut_off (refraction moles c) = c.
Proof.
  intros M W (E & X). unfold refraction. change (n0 <~ moles) with (Rltb 0 moles). rewrite Rltb_true by exact M.
  assert (Y : c_m c /~ moles /~ c_w c = c_x c) by (change (c_m c / moles / c_w c = c_x c); rewrite E; field; lra). rewrite Y.
  unfold cut_off. cbn [c_x c_w c_m]. change (c_x c <~ neps) with (Rltb (c_x c) Reps). destruct c as [w m x]. cbn [c_x c_w c_m] in *.
  destruct (Rltb_spec x Reps) as [L|L]; [|reflexivity]. destruct X as [X|X]; [|lra]. subst x. f_equal. change (0 = m). rewrite E. ring.
Qed.
Lemma combine_nth {A B} (a : list A) (b : list B) i x y : nth_error a i = Some x -> nth_error b i = Some y -> nth_error (combine a b) i = Some (x, y).
Proof.
  revert b i. induction a as [|u a IH]; intros [|v b] [|i]; cbn; try discriminate.
  - injection 1 as ->. injection 1 as ->. reflexivity.
  - apply IH.
Qed.

(** ** Moving [n] moles of fluid from one place to another *)
Theorem C164_transfer : forall n moles (src sink : list (cell R)) i s k, Reps < n -> 0 < moles ->
  nth_error src i = Some s -> nth_error sink i = Some k -> c_w s = c_w k -> 0 < c_w k ->
  exists s' k', nth_error (flow_out n src) i = Some s' /\ nth_error (flow_in moles (map c_x src) n sink) i = Some k' /\
    c_w s' = c_w s /\ c_w k' = c_w k /\ c_x s' = c_x s /\
    c_m s' = c_m s - n * c_x s * c_w s /\
    c_m k' = kept moles (c_w k) (c_m k + n * c_x s * c_w s) /\ settled moles k' /\
    (Reps * moles * c_w k <= c_m k + n * c_x s * c_w s -> c_m s' + c_m k' = c_m s + c_m k).
Proof.
  intros n moles src sink i s k P M A B W W0.
  pose (k1 := mkcell (c_w k) (c_m k + n * c_x s * c_w k) (c_x k)).
  destruct (settle_one moles k1 M W0) as (F1 & F2 & F3 & F4). exists (mkcell (c_w s) (c_m s - n * c_x s * c_w s) (c_x s)), (cut_off (refraction moles k1)).
  split. { unfold flow_out. change (neps <~ n) with (Rltb Reps n). rewrite Rltb_true by exact P. rewrite nth_error_map, A. reflexivity. }
  split. { unfold flow_in. rewrite fracs_map, !nth_error_map. rewrite (combine_nth (map c_x src) sink i (c_x s) k); [reflexivity| |exact B]. rewrite nth_error_map, A. reflexivity. }
  cbn [c_w c_m c_x]. split; [reflexivity|]. split; [exact F1|]. split; [reflexivity|]. split; [reflexivity|].
  cbn [c_w c_m k1] in F2. rewrite <- W in F2 at 2. split; [exact F2|]. split; [exact F4|].
  intro L. rewrite F2. unfold kept. destruct (Rlt_dec _ _) as [Q|Q]; [lra|lra].
Qed.
(** Less than [eps] of the moles is all that the cut-off can lose. *)
Theorem C164_loss : forall moles w m, 0 < moles -> 0 < w -> 0 <= m ->
  0 <= kept moles w m /\ 0 <= m - kept moles w m < Reps * moles * w.
Proof.
  intros moles w m M W P. unfold kept. pose proof Reps_pos. assert (0 < Reps * moles * w) by (apply Rmult_lt_0_compat; [nra|exact W]). destruct (Rlt_dec _ _); lra.
Qed.
(** What comes in mixes: the fraction is the mean of the two, weighed by moles. *)
Theorem C164_mix : forall n moles (src : list R) (sink : list (cell R)) i x k, 0 <= n -> 0 < moles ->
  nth_error src i = Some x -> nth_error sink i = Some k -> 0 < c_w k -> settled moles k -> Reps * (moles + n) <= c_x k * moles + x * n ->
  exists k', nth_error (flow_in (moles + n) src n sink) i = Some k' /\ c_x k' = (c_x k * moles + x * n) / (moles + n).
Proof.
  intros n moles src sink i x k P M A B W (E & _) L.
  pose (k1 := mkcell (c_w k) (c_m k + n * x * c_w k) (c_x k)).
  destruct (settle_one (moles + n) k1 ltac:(lra) W) as (_ & _ & F3 & _). exists (cut_off (refraction (moles + n) k1)).
  split. { unfold flow_in. rewrite fracs_map, !nth_error_map. rewrite (combine_nth src sink i x k A B). reflexivity. }
  rewrite F3. cbn [k1 c_w c_m]. unfold kept. destruct (Rlt_dec _ _) as [Q|Q].
  - exfalso. rewrite E in Q. assert (c_w k * (c_x k * moles + x * n) >= c_w k * (Reps * (moles + n))) by (apply Rmult_ge_compat_l; lra). lra.
  - rewrite E. field. lra.
Qed.
(** Draining a mixture leaves its fractions alone. *)
Theorem C164_drain : forall n moles (cs : list (cell R)), Reps < n -> n < moles -> Forall (fun c => 0 < c_w c) cs -> Forall (settled moles) cs ->
  Forall2 (fun c c' => c_w c' = c_w c /\ c_x c' = c_x c /\ c_m c' = c_m c * (1 - n / moles) /\ 0 <= c_m c')
    cs (limit_positive (moles - n) (flow_out n cs)).
Proof.
  intros n moles cs P L W S. pose proof Reps_pos as E0. unfold limit_positive, flow_out. change (neps <~ n) with (Rltb Reps n). rewrite Rltb_true by exact P. rewrite fracs_map, !map_map.
  induction cs as [|c cs IH]; [constructor|]. inversion W as [|? ? W1 W2]; inversion S as [|? ? S1 S2]; subst. constructor; [|apply IH; assumption].
  destruct (settled_pos moles c ltac:(lra) W1 S1) as [_ X0]. destruct S1 as (E & X). cbn [c_w c_m c_x].
  assert (Y : nmax n0 (c_m c -~ n *~ c_x c *~ c_w c) = c_x c * (moles - n) * c_w c).
  { rewrite nmaxR. change (n0:R) with 0. change (c_m c -~ n *~ c_x c *~ c_w c) with (c_m c - n * c_x c * c_w c). rewrite E, Rmax_right; [ring|].
    replace (c_x c * moles * c_w c - n * c_x c * c_w c) with (c_x c * (moles - n) * c_w c) by ring. apply Rmult_le_pos; [apply Rmult_le_pos|]; lra. }
  rewrite Y. set (d := mkcell _ _ _). rewrite (settled_eq (moles - n) d ltac:(lra) W1 (conj eq_refl X)).
  unfold d. cbn [c_w c_m c_x]. split; [reflexivity|]. split; [reflexivity|]. split; [rewrite E; field; lra|].
  apply Rmult_le_pos; [apply Rmult_le_pos|]; lra.
Qed.
(** Given rates change the masses by rate times time, down to nothing. *)
Theorem C164_rates : forall moles rates dt (cs : list (cell R)) i r c, 0 < moles -> nth_error rates i = Some r -> nth_error cs i = Some c -> 0 < c_w c ->
  exists c', nth_error (flow_rates moles rates dt cs) i = Some c' /\ c_w c' = c_w c /\
    c_m c' = kept moles (c_w c) (Rmax 0 (c_m c + r * dt)) /\ settled moles c'.
Proof.
  intros moles rates dt cs i r c M A B W. pose (k1 := mkcell (c_w c) (Rmax 0 (c_m c + r * dt)) (c_x c)).
  destruct (settle_one moles k1 M W) as (F1 & F2 & _ & F4). exists (cut_off (refraction moles k1)). split; [|split; [exact F1|split; [exact F2|exact F4]]].
  unfold flow_rates. rewrite fracs_map, !nth_error_map. rewrite (combine_nth rates cs i r c A B). cbn [option_map fst snd]. rewrite nmaxR. reflexivity.
Qed.
(** Masses and fractions describe the same state: neither update changes a settled one, and the masses make
    of any fractions that are no rounding errors a settled state. *)
Theorem C164_agree : forall moles (cs : list (cell R)), 0 < moles -> Forall (fun c => 0 < c_w c) cs ->
  (Forall (settled moles) cs -> update_fracs moles cs = cs /\ update_masses moles cs = cs /\ limit_positive moles cs = cs) /\
  (Forall (fun c => c_x c = 0 \/ Reps <= c_x c) cs -> Forall (settled moles) (update_masses moles cs)) /\
  Forall (settled moles) (limit_positive moles cs).
Proof.
  intros moles cs M W. split; [|split].
  - intro S. unfold limit_positive. rewrite !fracs_map, map_map. rewrite Forall_forall in W, S. repeat split.
    + rewrite <- (map_id cs) at 2. apply map_ext_in. intros c I. apply settled_eq; auto.
    + unfold update_masses. rewrite <- (map_id cs) at 2. apply map_ext_in. intros c I. destruct (S c I) as (E & _). destruct c as [w m x]. cbn [c_w c_m c_x] in *. rewrite E. reflexivity.
    + rewrite <- (map_id cs) at 2. apply map_ext_in. intros c I. destruct (settled_pos moles c M (W c I) (S c I)) as [P _].
      replace (nmax n0 (c_m c)) with (c_m c) by (rewrite nmaxR; change (n0:R) with 0; rewrite Rmax_right; [reflexivity|exact P]).
      pose proof (settled_eq moles c M (W c I) (S c I)) as Q. destruct c as [w m x]. exact Q.
  - intro X. unfold update_masses. rewrite Forall_forall in X |- *. intros c I. apply in_map_iff in I. destruct I as (d & <- & I). split; [reflexivity|exact (X d I)].
  - unfold limit_positive. apply fracs_settled; [exact M|]. rewrite Forall_forall in W |- *. intros c I. apply in_map_iff in I. destruct I as (d & <- & I). exact (W d I).
Qed.
(** In a fluid without moles the fractions are not touched, even when the masses are gone. *)
Theorem C164_empty : forall moles (cs : list (cell R)), moles <= 0 -> Forall (fun c => Reps <= c_x c) cs ->
  map c_x (limit_positive moles cs) = map c_x cs /\ map c_m (limit_positive moles cs) = map (fun c => Rmax 0 (c_m c)) cs.
Proof.
  intros moles cs M X. unfold limit_positive. rewrite fracs_map, !map_map.
  assert (G : forall c, Reps <= c_x c -> cut_off (refraction moles (mkcell (c_w c) (nmax n0 (c_m c)) (c_x c))) = mkcell (c_w c) (Rmax 0 (c_m c)) (c_x c)).
  { intros c L. unfold refraction. change (n0 <~ moles) with (Rltb 0 moles). rewrite (Rltb_false 0 moles) by lra. unfold cut_off. cbn [c_x].
    change (c_x c <~ neps) with (Rltb (c_x c) Reps). rewrite (Rltb_false (c_x c) Reps) by lra. rewrite nmaxR. reflexivity. }
  rewrite Forall_forall in X. split; apply map_ext_in; intros c I; rewrite (G c (X c I)); reflexivity.
Qed.

(** ** Setting up *)
Definition alike (a b : kind R) : Prop := (k_type a = k_type b /\ k_type a <> 0%nat) \/ k_name a = k_name b.
Lemma clash_alike (a b : kind R) : clash a b = true <-> alike a b.
Proof.
  unfold clash, alike. rewrite orb_true_iff, andb_true_iff, negb_true_iff, !Nat.eqb_eq, Nat.eqb_neq. split; intros [[H1 H2]|H]; auto.
Qed.
Lemma clashes_spec (ks : list (kind R)) : clashes ks = false <->
  forall i j a b, (i < j)%nat -> nth_error ks i = Some a -> nth_error ks j = Some b -> ~ alike a b.
Proof.
  induction ks as [|k r IH]; cbn [clashes]; [split; [intros _ [|i] j a b; discriminate|reflexivity]|].
  rewrite orb_false_iff, IH. split.
  - intros [A B] [|i] [|j] a b L; try lia; cbn [nth_error].
    + injection 1 as <-. intros H. apply nth_error_In in H. intro C. apply clash_alike in C. assert (X : existsb (clash k) r = true) by (apply existsb_exists; eauto). congruence.
    + apply B. lia.
  - intro H. split.
    + destruct (existsb (clash k) r) eqn:E; [|reflexivity]. apply existsb_exists in E. destruct E as (b & I & C). apply In_nth_error in I. destruct I as (j & J).
      apply clash_alike in C. destruct (H 0%nat (S j) k b); [lia|reflexivity|exact J|exact C].
    + intros i j a b L A B. apply (H (S i) (S j) a b); [lia|exact A|exact B].
Qed.
(** Only compounds that can be told apart and fractions of the right sign are taken; a fluid that has
    moles then starts settled, with the fractions given but for rounding errors. *)
Theorem C164_init : forall moles (ks : list (kind R)) (xs : list R), length xs = length ks -> Forall (fun k => 0 < k_w k) ks ->
  ((exists cs, tc_init moles ks (Some xs) = Some cs) <->
   (forall i j a b, (i < j)%nat -> nth_error ks i = Some a -> nth_error ks j = Some b -> ~ alike a b) /\ Forall (fun x => 0 <= x) xs) /\
  (forall cs, tc_init moles ks (Some xs) = Some cs -> 0 < moles -> Forall (settled moles) cs /\ map c_w cs = map k_w ks /\
     (Forall (fun x => x = 0 \/ Reps <= x) xs -> map c_x cs = xs)).
Proof.
  intros moles ks xs L W. unfold tc_init, tc_valid. split.
  - rewrite <- L, firstn_all, <- clashes_spec.
    assert (Q : existsb (fun x : R => x <~ n0) xs = false <-> Forall (fun x => 0 <= x) xs).
    { clear. induction xs as [|x xs IH]; cbn [existsb]; [split; [constructor|reflexivity]|]. change (x <~ n0) with (Rltb x 0). rewrite orb_false_iff, IH.
      split; [intros [A B]; constructor; [destruct (Rltb_spec x 0); [discriminate|lra]|exact B]|]. intro H. inversion H; subst. split; [apply Rltb_false; lra|assumption]. }
    rewrite <- Q. destruct (clashes ks), (existsb _ xs); cbn [negb andb]; (split; [intros (cs & H); try discriminate H; split; reflexivity|intros [A B]; try discriminate; eexists; reflexivity]).
  - intros cs. destruct (_ && _); [|discriminate]. intros E M. injection E as <-.
    set (l := update_masses _ _).
    assert (LW : map c_w l = map k_w ks /\ map c_x l = xs).
    { unfold l, update_masses. rewrite !map_map. cbn [c_w c_x]. clear -L. revert xs L. induction ks as [|k ks IH]; intros [|x xs] L; cbn in *; try discriminate; [split; reflexivity|].
      destruct (IH xs) as [A B]; [lia|]. rewrite A, B. split; reflexivity. }
    assert (LP : Forall (fun c => 0 < c_w c) l).
    { destruct LW as [LW _]. apply Forall_forall. intros c I. apply (in_map c_w) in I. rewrite LW in I. apply in_map_iff in I. destruct I as (k & E & I). rewrite <- E. rewrite Forall_forall in W. auto. }
    destruct (C164_agree moles l M LP) as (A1 & _ & A3). split; [exact A3|]. split.
    + destruct LW as [<- _]. unfold limit_positive. rewrite fracs_map, !map_map. apply map_ext_in. intros c I. rewrite Forall_forall in LP.
      destruct (settle_one moles (mkcell (c_w c) (nmax n0 (c_m c)) (c_x c)) M (LP c I)) as (-> & _). reflexivity.
    + intro X. destruct A1 as (_ & _ & ->); [|exact (proj2 LW)]. unfold l in *.
      set (l0 := map _ _) in *. assert (X0 : Forall (fun c => c_x c = 0 \/ Reps <= c_x c) l0).
      { apply Forall_forall. intros c I. destruct LW as [_ LW]. unfold update_masses in LW. rewrite map_map in LW. cbn [c_x] in LW.
        apply (in_map c_x) in I. change (map c_x l0) with (map (fun x => c_x x) l0) in I. rewrite LW in I. rewrite Forall_forall in X. auto. }
      assert (LP0 : Forall (fun c => 0 < c_w c) l0).
      { apply Forall_forall. intros c I. rewrite Forall_forall in LP. apply (LP (mkcell (c_w c) (c_x c *~ moles *~ c_w c) (c_x c))). unfold update_masses. apply in_map_iff. eauto. }
      apply (C164_agree moles l0 M LP0). exact X0.
Qed.
(** A compound is found by its type, or by its name if it has none; no other has it. *)
Theorem C164_find : forall (ks : list (kind R)) ty name i, clashes ks = false -> tc_find ty name ks 0 = Some i ->
  exists k, nth_error ks i = Some k /\ (if Nat.eqb ty 0 then k_name k = name else k_type k = ty) /\
    (forall j k', nth_error ks j = Some k' -> (if Nat.eqb ty 0 then k_name k' = name else k_type k' = ty) -> j = i).
Proof.
  intros ks ty name i C F.
  assert (G : forall (ks : list (kind R)) i0, tc_find ty name ks i0 = Some i -> exists d k, i = (i0 + d)%nat /\ nth_error ks d = Some k /\ (if Nat.eqb ty 0 then k_name k = name else k_type k = ty)).
  { clear. induction ks as [|k r IH]; intros i0 F; cbn [tc_find] in F; [discriminate|].
    destruct (if negb (Nat.eqb ty 0) then Nat.eqb (k_type k) ty else Nat.eqb (k_name k) name) eqn:E.
    - injection F as <-. exists 0%nat, k. rewrite Nat.add_0_r. split; [reflexivity|]. split; [reflexivity|]. destruct (Nat.eqb ty 0); cbn [negb] in E; apply Nat.eqb_eq, E.
    - destruct (IH (S i0) F) as (d & k' & -> & A & B). exists (S d), k'. split; [lia|]. split; assumption. }
  destruct (G ks 0%nat F) as (d & k & -> & A & B). exists k. split; [exact A|]. split; [exact B|]. intros j k' J K.
  pose proof (proj1 (clashes_spec ks) C) as D. cbn [Nat.add] in *. destruct (Nat.lt_trichotomy j d) as [H|[H|H]]; [|exact H|]; exfalso.
  - apply (D j d k' k H J A). unfold alike. destruct (Nat.eqb_spec ty 0) as [Z|Z]; [right; congruence|left; split; congruence].
  - apply (D d j k k' H A J). unfold alike. destruct (Nat.eqb_spec ty 0) as [Z|Z]; [right; congruence|left; split; congruence].
Qed.
Print Assumptions C164_transfer. Print Assumptions C164_loss. Print Assumptions C164_mix. Print Assumptions C164_drain. Print Assumptions C164_rates.
Print Assumptions C164_agree. Print Assumptions C164_empty. Print Assumptions C164_init. Print Assumptions C164_find.

(** Two compounds in ten moles of fluid, one at a tenth; three moles of it go to five moles without any. *)
Definition tc10 : list (cell R) := [mkcell 30 30 (1 / 10); mkcell 44 0 0].
Definition tc5 : list (cell R) := [mkcell 30 0 0; mkcell 44 0 0].
Example C164_ex : Forall (settled 10) tc10 /\ Forall (fun c => 0 < c_w c) tc10 /\ Reps < 3 /\
  (exists k', nth_error (flow_in (5 + 3) (map c_x tc10) 3 tc5) 0 = Some k' /\ c_x k' = 3 / 80) /\
  tc_init 10 [mkkind 1 1 30; mkkind 0 2 44] (Some [1 / 10; -1]) = None /\
  tc_init 10 [mkkind 1 1 30; mkkind 1 2 44] (Some [1 / 10; 0 : R]) = None.
Proof.
  pose proof Reps_pos. pose proof Reps_small. split; [|split; [|split; [|split; [|split]]]].
  - repeat constructor; cbn; lra.
  - repeat constructor; cbn; lra.
  - lra.
  - destruct (C164_mix 3 5 (map c_x tc10) tc5 0 (1 / 10) (mkcell 30 0 0)) as (k' & A & B); try reflexivity; cbn [c_x c_w]; try lra.
    + split; cbn; lra.
    + exists k'. split; [exact A|]. rewrite B. cbn [c_x]. lra.
  - unfold tc_init, tc_valid. cbn [clashes existsb firstn length clash k_type k_name Nat.eqb negb andb orb].
    change ((1 / 10 : R) <~ n0) with (Rltb (1 / 10) 0). change ((-1 : R) <~ n0) with (Rltb (-1) 0). rewrite (Rltb_true (-1) 0) by lra. rewrite orb_true_r. reflexivity.
  - reflexivity.
Qed.
