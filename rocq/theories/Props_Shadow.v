(** C229, C230: shadows of volumes of other networks, and leaks of sealed jumpers. *)
From Coq Require Import Floats.
From Coq Require Import Reals Lra Lia List Arith Bool ZArith.
From Verif Require Import Num Ord MathUtil Props_Math Spec_Valve Props_Valve Props_Thermal FluidFlow Props_FluidFlow Props_FluidMix Props_Detector FluidFan Props_FluidFan Props_FluidControl Shadow.
Import ListNotations.
Local Open Scope R_scope.

(** ** When it is active *)
Section ACTIVE.
Context {T : Type} {N : Num T}.
(** After any passes since initialization: active exactly if the last is not the first and has the link's
    control value. *)
Theorem C229_active : forall (c : shc T) us u (s : shs T) n, h_first s = false ->
  h_active (fst (sh_run c (us ++ [u]) (s, n))) = true <-> us <> [] /\ fst u = h_target c.
Proof.
  intros c us u s n F. unfold sh_run. rewrite fold_left_app. cbn [fold_left].
  assert (FI : h_first (fst (fold_left (sh_pass c) us (s, n))) = match us with [] => false | _ => true end).
  { destruct us as [|v us] using rev_ind; [exact F|]. rewrite fold_left_app. cbn [fold_left]. clear IHus.
    destruct (fold_left (sh_pass c) us (s, n)) as [s1 n1]. unfold sh_pass. cbn [fst snd].
    assert (X : forall z, h_first (fst (sh_process c (fst v) z n1)) = true) by (intro z; unfold sh_process; destruct (h_first z); [destruct (Z.eqb _ _)|]; reflexivity).
    rewrite X. destruct us; reflexivity. }
  destruct (fold_left (sh_pass c) us (s, n)) as [s1 n1]. cbn [fst] in FI. unfold sh_pass. cbn [fst snd].
  assert (F2 : h_first (match snd u with Some (p, t, x) => sh_set p t x s1 | None => s1 end) = h_first s1) by (destruct (snd u) as [[[p t] x]|]; reflexivity).
  unfold sh_process. rewrite F2, FI. destruct us as [|v us].
  - cbn. split; [discriminate|]. intros [H _]. congruence.
  - destruct (Z.eqb_spec (fst u) (h_target c)) as [Q|Q]; cbn [fst h_active]; split; intro H; try (split; [discriminate|assumption]); try reflexivity; try discriminate H. now destruct H.
Qed.
(** Of two links with different control values that get the same control, never both follow, and exactly
    one does once the control has either value. *)
Theorem C229_exclusive : forall (c1 c2 : shc T) us1 us2 u1 u2 (s1 s2 : shs T) n1 n2, h_first s1 = false -> h_first s2 = false ->
  h_target c1 <> h_target c2 -> fst u1 = fst u2 ->
  let a1 := h_active (fst (sh_run c1 (us1 ++ [u1]) (s1, n1))) in let a2 := h_active (fst (sh_run c2 (us2 ++ [u2]) (s2, n2))) in
  a1 && a2 = false /\ (us1 <> [] -> us2 <> [] -> fst u1 = h_target c1 \/ fst u1 = h_target c2 -> a1 || a2 = true).
Proof.
  intros c1 c2 us1 us2 u1 u2 s1 s2 n1 n2 F1 F2 D E. cbv zeta. pose proof (C229_active c1 us1 u1 s1 n1 F1) as A1. pose proof (C229_active c2 us2 u2 s2 n2 F2) as A2.
  destruct (h_active (fst (sh_run c1 _ _))), (h_active (fst (sh_run c2 _ _))); cbn; split; try reflexivity.
  - exfalso. destruct (proj1 A1 eq_refl) as [_ X]. destruct (proj1 A2 eq_refl) as [_ Y]. congruence.
  - intros N1 N2 [H|H]; [apply A1|apply A2]; split; congruence.
Qed.
(** An inactive link leaves the node as it is and does not conduct; an active one conducts fully, has the
    input pressure as source and gives the node the inputs. *)
Theorem C229_pass : forall (c : shc T) mx ctl p t x (s : shs T) n, let '(s', n') := sh_pass c (s, n) (ctl, Some (p, t, x)) in
  (h_active s' = false -> n' = n /\ sh_cond mx s' = n0 /\ h_src s' = h_src s) /\
  (h_active s' = true -> n' = mkvol p t (transform_fracs (v_x n) (h_map c) (sh_convert c x)) /\ sh_cond mx s' = mx /\ h_src s' = p).
Proof.
  intros c mx ctl p t x s n. unfold sh_pass, sh_process, sh_cond. cbn [fst snd sh_set h_first h_p h_t h_x h_src]. destruct (h_first s); [destruct (Z.eqb ctl (h_target c))|]; cbn; split; intro H; try discriminate H; auto.
Qed.
Theorem C229_ports : forall ground port node, (port < 2)%nat -> sh_port ground port node = true <-> (port = 0%nat <-> node = ground).
Proof.
  intros ground port node P. unfold sh_port. destruct (Nat.eqb_spec node ground) as [Q|Q]; destruct port as [|[|port]]; try lia; cbn; intuition (try discriminate; try congruence).
Qed.
End ACTIVE.
Print Assumptions C229_active.
Print Assumptions C229_exclusive.
Print Assumptions C229_pass.
Print Assumptions C229_ports.

(** ** What it shows *)
Lemma sent_seq : forall xs k i, total (map (sent i) (combine (map Some (seq k (length xs))) xs)) = if (k <=? i)%nat then nth (i - k) xs 0 else 0.
Proof.
  induction xs as [|x xs IH]; intros k i; cbn [length seq map combine total fold_right].
  - destruct (k <=? i)%nat; [destruct (i - k)%nat|]; reflexivity.
  - fold (total (map (sent i) (combine (map Some (seq (S k) (length xs))) xs))). rewrite IH. unfold sent. cbn [fst snd].
    destruct (Nat.eqb_spec k i) as [Q|Q].
    + subst i. rewrite Nat.leb_refl, Nat.sub_diag. replace (S k <=? k)%nat with false by (symmetry; apply Nat.leb_gt; lia). cbn [nth]. lra.
    + destruct (Nat.leb_spec k i) as [L|L].
      * replace (S k <=? i)%nat with true by (symmetry; apply Nat.leb_le; lia). replace (i - k)%nat with (S (i - S k)) by lia. cbn [nth]. lra.
      * replace (S k <=? i)%nat with false by (symmetry; apply Nat.leb_gt; lia). lra.
Qed.
Lemma sent_all : forall xs k, total (map sent_any (combine (map Some (seq k (length xs))) xs)) = total xs.
Proof. induction xs as [|x xs IH]; intro k; cbn [length seq map combine total fold_right]; [reflexivity|]. fold (total (map sent_any (combine (map Some (seq (S k) (length xs))) xs))). rewrite IH. reflexivity. Qed.
Lemma transform_id old xs : length old = length xs -> total xs = 1 -> transform_fracs old (map Some (seq 0 (length xs))) xs = xs.
Proof.
  intros L T1. apply (nth_ext _ _ 0 0).
  - destruct xs as [|x xs]; [cbn in T1; lra|]. destruct (C158_transform old (map Some (seq 0 (length (x :: xs)))) (x :: xs) 0) as (_ & _ & H); [rewrite L; cbn; lia|]. now rewrite H.
  - intros i I. destruct (Nat.lt_ge_cases i (length old)) as [LT|GE].
    + destruct (C158_transform old (map Some (seq 0 (length xs))) xs i LT) as (H & _ & _). rewrite H by (rewrite sent_all; lra). rewrite sent_seq, sent_all, T1, Nat.sub_0_r. cbn. field.
    + assert (length old = 0%nat \/ (0 < length old)%nat) as [Z0|Z0] by lia; [destruct xs; [cbn in T1; lra|cbn in L; lia]|].
      destruct (C158_transform old (map Some (seq 0 (length xs))) xs 0 Z0) as (_ & _ & H). rewrite H in I. lia.
Qed.
Lemma weighed : forall ws ys, length ws = length ys -> Forall (fun w => Reps <= w <= / Reps) ws -> Forall (fun y => 0 <= y) ys ->
  Reps * total ys <= total (products ys ws) <= / Reps * total ys.
Proof.
  induction ws as [|w ws IH]; intros [|y ys] L FW FY; try discriminate L; cbn [total fold_right products combine map fst snd]; [lra|].
  inversion FW as [|? ? W1 W2]; subst. inversion FY as [|? ? Y1 Y2]; subst. specialize (IH ys ltac:(cbn in L; lia) W2 Y2).
  unfold products, total in IH |- *. cbn [combine map fold_right fst snd]. nra.
Qed.
(** The input mixture as the other network means it. *)
Definition meant (ty : mtype) (p : R) (x : list R) : Prop :=
  match ty with MassFrac | MoleFrac => total x = 1 | PartPress => total x = p /\ Reps <= p end.
(** An active link between the same types of fluid, of which both sides use the same kind of mixture, shows
    the inputs it was given, if the node takes the input pressure as its potential. *)
Theorem C229_shows : forall (c : shc R) p t x (s : shs R) n ctl, h_in c = h_out c -> h_we c = h_wi c -> length (h_we c) = length x -> length (v_x n) = length x ->
  h_map c = map Some (seq 0 (length x)) -> Forall (fun w => Reps <= w <= / Reps) (h_we c) ->
  Forall (fun y => 0 <= y) x -> meant (h_in c) p x ->
  let '(s', n') := sh_pass c (s, n) (ctl, Some (p, t, x)) in h_active s' = true -> sh_outputs c p n' = (p, t, x).
Proof.
  intros c p t x s n ctl IO WW LW LN MP FW0 NX ME. pose proof (C229_pass c 0 ctl p t x s n) as P. destruct (sh_pass c (s, n) _) as [s' n']. destruct P as [_ P]. intro A. destruct (P A) as (-> & _ & _).
  assert (FW : Forall (fun w => 0 < w) (h_we c)) by (eapply Forall_impl; [|exact FW0]; intros w W; pose proof Reps_pos; cbv beta in *; lra).
  unfold sh_outputs. cbn [v_x v_t]. f_equal. rewrite <- IO, <- WW, MP.
  assert (MM : forall y, Forall (fun z => 0 <= z) y -> total y = 1 -> length y = length x -> let z := mole_to_mass y y (h_we c) in total z = 1 /\ length z = length x /\ mass_to_mole z z (h_we c) = y).
  { intros y NY T1 LY. cbv zeta. pose proof (weighed (h_we c) y ltac:(lia) FW0 NY) as RY. rewrite T1, !Rmult_1_r in RY. destruct (C158_fractions y y (h_we c)) as (F1 & _). destruct (F1 (proj1 RY)) as [F2 _]. split; [exact F2|]. split.
    - rewrite m2mR. destruct (Rle_dec _ _); [|exact LY]. rewrite map_length. unfold products. rewrite map_length, combine_length. lia.
    - apply (proj1 (C158_round_trip y (mole_to_mass y y (h_we c)) y (h_we c) ltac:(lia) FW T1)). exact RY. }
  unfold sh_convert, meant in *. destruct (h_in c).
  - apply transform_id; assumption.
  - destruct (MM x NX ME eq_refl) as (A1 & A2 & A3). rewrite <- A2 at 1 2. rewrite transform_id by (lia || exact A1). exact A3.
  - destruct ME as [TP RP]. pose proof Reps_pos as RP0.
    assert (PM : press_to_mole x x = map (fun y => y / p) x).
    { unfold press_to_mole, scaled. rewrite fold_add. change (neps <=~ _) with (Rleb Reps (total x)). rewrite TP. destruct (Rleb_spec Reps p); [reflexivity|lra]. }
    rewrite PM. assert (T1 : total (map (fun y => y / p) x) = 1) by (rewrite total_div, TP; field; lra).
    assert (NP : Forall (fun z => 0 <= z) (map (fun y => y / p) x)) by (apply Forall_map; eapply Forall_impl; [|exact NX]; intros y Y; cbv beta in *; apply Rmult_le_pos; [exact Y|left; apply Rinv_0_lt_compat; lra]).
    destruct (MM (map (fun y => y / p) x) NP T1 (map_length _ _)) as (A1 & A2 & A3). rewrite <- A2 at 1 2. rewrite transform_id by (lia || exact A1). rewrite A3.
    unfold mole_to_press. rewrite map_map. rewrite <- (map_id x) at 2. apply map_ext. intro y. cbn [nmul RNum]. field. lra.
Qed.
Print Assumptions C229_shows.

(** ** Refutations *)
Definition two : shc float := mkshc 1 MoleFrac MoleFrac [Some 0%nat; Some 1%nat] [32; 4]%float [32; 4]%float.
(** Refuted: without new inputs an active link shows the same.  The mixture is converted again in place in
    every pass. *)
Theorem C229_stale_refuted : exists (c : shc float) s n x y,
  let r1 := sh_run c [(1%Z, Some (100, 300, x)%float); (1%Z, Some (100, 300, x)%float)] (s, n) in let r2 := sh_pass c r1 (1%Z, None) in
  h_active (fst r1) = true /\ h_active (fst r2) = true /\ sh_outputs c 100%float (snd r1) = (100%float, 300%float, x) /\
  sh_outputs c 100%float (snd r2) = (100%float, 300%float, y) /\ x = [0.5; 0.5]%float /\ nth 0 y 0%float = 0.88888888888888884%float.
Proof.
  exists two, (mkshs false false 0%float 0%float [1; 0]%float 0%float), (mkvol 0%float 0%float [1; 0]%float), [0.5; 0.5]%float. eexists. cbv zeta.
  split; [vm_compute; reflexivity|]. split; [vm_compute; reflexivity|]. split; [vm_compute; reflexivity|]. split; [vm_compute; reflexivity|]. split; vm_compute; reflexivity.
Qed.
Print Assumptions C229_stale_refuted.
(** Refuted: inputs given while the link was inactive are those it shows when it becomes active. *)
Theorem C229_handover_refuted : exists (c : shc float) s n x y,
  let r1 := sh_run c [(0%Z, Some (100, 300, x)%float); (0%Z, None); (1%Z, None)] (s, n) in
  h_active (fst r1) = true /\ snd (sh_outputs c 100%float (snd r1)) = y /\ x = [0.5; 0.5]%float /\ nth 0 y 0%float = 0.88888888888888884%float.
Proof.
  exists two, (mkshs false false 0%float 0%float [1; 0]%float 0%float), (mkvol 0%float 0%float [1; 0]%float), [0.5; 0.5]%float. eexists. cbv zeta.
  split; [vm_compute; reflexivity|]. split; [vm_compute; reflexivity|]. split; vm_compute; reflexivity.
Qed.
Print Assumptions C229_handover_refuted.
(** The premises of C229_shows hold of a mixture of two gases given by partial pressures. *)
Example C229_shows_any : exists (c : shc R) p x, h_in c = h_out c /\ h_in c = PartPress /\ h_we c = h_wi c /\ length (h_we c) = length x /\
  h_map c = map Some (seq 0 (length x)) /\ Forall (fun w => Reps <= w <= / Reps) (h_we c) /\ Forall (fun y => 0 <= y) x /\ meant (h_in c) p x /\ x = [20; 80].
Proof.
  assert (I : 32 <= / Reps) by (pose proof Reps_pos; pose proof Reps_small; rewrite <- (Rinv_inv 32); apply Rinv_le_contravar; lra). pose proof Reps_small. pose proof Reps_pos.
  exists (mkshc 1 PartPress PartPress [Some 0%nat; Some 1%nat] [32; 28] [32; 28]), 100, [20; 80]. cbn. refine (conj eq_refl (conj eq_refl (conj eq_refl (conj eq_refl (conj eq_refl (conj _ (conj _ (conj _ eq_refl)))))))).
  - apply Forall_cons; [lra|]. apply Forall_cons; [lra|]. apply Forall_nil.
  - apply Forall_cons; [lra|]. apply Forall_cons; [lra|]. apply Forall_nil.
  - lra.
Qed.
Example C229_active_any : exists (s : shs float) n, h_first s = false /\ h_active (fst (sh_run two [(0%Z, None); (1%Z, Some (100, 300, [0.5; 0.5])%float)] (s, n))) = true /\
  h_active (fst (sh_run two [(1%Z, Some (100, 300, [0.5; 0.5])%float)] (s, n))) = false.
Proof. exists (mkshs false false 0%float 0%float [1; 0]%float 0%float), (mkvol 0%float 0%float [1; 0]%float). repeat split; vm_compute; reflexivity. Qed.

(** ** C230: leaks *)
Notation jupdR := (jumper_update sqrt powR).
Notation jrunR := (jumper_run sqrt powR).
Notation sockR := (socket_update sqrt powR).
Lemma jstep_keeps mx minp (s : jleak R * R) u : 0 <= mx -> 0 <= l_cond (fst s) ->
  let r := jumper_step sqrt powR mx minp s u in 0 <= l_cond (fst r) /\ 0 <= snd r <= mx.
Proof.
  intros M C0. cbv zeta. unfold jumper_step, jumper_update, seal_leak. cbn [l_flag l_rate l_prev l_cond]. destruct (t_same u); [cbn; lra|]. destruct (t_sealed u); [|cbn [fst snd l_cond]; lra].
  pose proof (predict_nonneg (t_rate u) minp (t_a u) (t_b u)) as P.
  assert (Q : forall k, 0 <= k -> 0 <= nmin k mx <= mx) by (intros k K; unfold nmin; destruct (mx <~ k) eqn:E; [lra|]; assert (~ mx < k) by (intro Z0; apply ltI in Z0; congruence); lra).
  destruct (negb _); cbn [fst snd l_cond l_flag]; (split; [assumption|]); destruct (t_flag u); try (apply Q; assumption); cbn; lra.
Qed.
(** Whatever happens to it, a jumper conducts no less than nothing and no more than its hose. *)
Theorem C230_bounded : forall mx minp us (s : jleak R * R), 0 <= mx -> 0 <= l_cond (fst s) -> 0 <= snd s <= mx ->
  let r := jrunR mx minp us s in 0 <= snd r <= mx /\ 0 <= l_cond (fst r).
Proof.
  intros mx minp us. unfold jumper_run. induction us as [|u us IH]; intros s M C0 S0; cbn [fold_left]; cbv zeta; [tauto|].
  pose proof (jstep_keeps mx minp s u M C0) as J. cbv zeta in J. destruct J as [J1 J2]. apply IH; assumption.
Qed.
(** On one node it is shut; open it is the hose; sealed it conducts only while the malfunction is on. *)
Theorem C230_states : forall mx minp same sealed a b l,
  let k := snd (jupdR mx minp same sealed a b l) in
  (same = true -> k = 0) /\ (same = false -> sealed = false -> k = mx) /\ (sealed = true -> l_flag l = false -> k = 0).
Proof.
  intros mx minp same sealed a b l. unfold jumper_update, seal_leak. destruct same, sealed; cbn [snd]; refine (conj _ (conj _ _)); intros; try discriminate; try reflexivity; destruct (negb _); cbn [l_flag] in *; match goal with H : l_flag l = false |- _ => rewrite H; reflexivity end.
Qed.
(** A socket is a jumper that is sealed while it is connected or seals itself. *)
Theorem C230_socket : forall mx minp con sealing a b l,
  sockR mx minp con sealing a b l = jupdR mx minp false (con || sealing) a b l.
Proof. reflexivity. Qed.
(** A leak runs at its rate from the step it is commanded in, while the nodes keep their states and the
    hose could let more through. *)
Theorem C230_rate : forall mx minp a b l, l_flag l = true -> l_prev l <> l_rate l ->
  Reps < Rabs (d_p a - d_p b) -> Reps < flow_rho a b -> Reps < flow_mw a b -> predR (l_rate l) minp a b half <= mx ->
  admR (snd (jupdR mx minp false true a b l)) minp a b half * lin_drop minp a b * flow_mw a b = Rabs (l_rate l).
Proof.
  intros mx minp a b l F D H1 H2 H3 M. unfold jumper_update, seal_leak. cbn [neqb RNum].
  assert (E : Reqb (l_prev l) (l_rate l) = false) by (destruct (Reqb_spec (l_prev l) (l_rate l)); [contradiction|reflexivity]).
  rewrite E. cbn [negb l_flag l_cond snd]. rewrite F. unfold nmin. destruct (mx <~ _) eqn:Q; [apply ltI in Q; lra|]. apply (C154_predict (l_rate l) minp a b half H1 H2 H3).
Qed.
(** The leak remembers the nodes at the last sealed step that saw a new rate, whatever they do later. *)
Theorem C230_remembers : forall mx minp old u new (s : jleak R * R),
  t_same u = false -> t_sealed u = true -> l_prev (fst (jrunR mx minp old s)) <> t_rate u ->
  Forall (fun v => t_rate v = t_rate u) new ->
  let r := fst (jrunR mx minp (old ++ u :: new) s) in l_cond r = predR (t_rate u) minp (t_a u) (t_b u) half /\ l_prev r = t_rate u.
Proof.
  intros mx minp old u new s S1 S2 D F. cbv zeta. unfold jumper_run in *. rewrite fold_left_app. cbn [fold_left]. set (s1 := fold_left (jumper_step sqrt powR mx minp) old s) in *. clearbody s1.
  assert (A : l_cond (fst (jumper_step sqrt powR mx minp s1 u)) = predR (t_rate u) minp (t_a u) (t_b u) half /\ l_prev (fst (jumper_step sqrt powR mx minp s1 u)) = t_rate u).
  { unfold jumper_step, jumper_update, seal_leak. rewrite S1, S2. cbn [l_prev l_rate l_flag neqb RNum].
    assert (E : Reqb (l_prev (fst s1)) (t_rate u) = false) by (destruct (Reqb_spec (l_prev (fst s1)) (t_rate u)); [contradiction|reflexivity]). rewrite E. cbn. auto. }
  set (s2 := jumper_step sqrt powR mx minp s1 u) in *. clearbody s2. clear D s1 s. revert s2 A.
  induction new as [|v new IH]; intros s2 A; cbn [fold_left]; [exact A|]. inversion F as [|? ? F1 F2]; subst. apply IH; [exact F2|]. clear IH.
  destruct A as [A1 A2]. unfold jumper_step, jumper_update, seal_leak. destruct (t_same v); [cbn; auto|]. destruct (t_sealed v); [|cbn; auto].
  cbn [l_prev l_rate l_flag neqb RNum]. assert (E : Reqb (l_prev (fst s2)) (t_rate v) = true) by (destruct (Reqb_spec (l_prev (fst s2)) (t_rate v)); [reflexivity|exfalso; congruence]). rewrite E. cbn. auto.
Qed.
(** Refuted: a leak commanded of a sealed jumper leaks as soon as the pressures differ.  Commanded while they
    were equal, it never does until its rate is changed, though the nodes get any pressures. *)
Theorem C230_starts_refuted : exists (u : jstep R), t_same u = false /\ t_sealed u = true /\ t_flag u = true /\ t_rate u = 1 /\
  forall mx minp new (s : jleak R * R), 0 <= mx -> l_prev (fst s) = 0 -> Forall (fun v => t_rate v = 1 /\ t_sealed v = true) new ->
  snd (jrunR mx minp (u :: new) s) = 0.
Proof.
  set (g := mkfl 100 300 1 28 true 1 1 1 : @fl R). exists (mkjs true 1 false true g g). refine (conj eq_refl (conj eq_refl (conj eq_refl (conj eq_refl _)))).
  intros mx minp new s M P F.
  assert (K : forall new', Forall (fun v => t_rate v = 1 /\ t_sealed v = true) new' -> l_cond (fst (jrunR mx minp (mkjs true 1 false true g g :: new') s)) = 0 /\ l_prev (fst (jrunR mx minp (mkjs true 1 false true g g :: new') s)) = 1).
  { intros new' F'. assert (F2 : Forall (fun v => t_rate v = 1) new') by (eapply Forall_impl; [|exact F']; intros v H; exact (proj1 H)).
    destruct (C230_remembers mx minp [] (mkjs true 1 false true g g) new' s eq_refl eq_refl) as [A B]; [cbn; rewrite P; lra|exact F2|]. cbn [app t_rate t_a t_b] in A, B. split; [|exact B]. rewrite A.
    unfold predict_cond. destruct (neps <~ nabs (d_p g -~ d_p g)) eqn:E; [|reflexivity]. exfalso. apply ltI in E. change (nabs (d_p g -~ d_p g)) with (Rabs (100 - 100)) in E. change (neps : R) with Reps in E. pose proof Reps_pos. rewrite Rminus_diag_eq, Rabs_R0 in E by reflexivity. lra. }
  assert (Z0 : forall k, k = 0 -> nmin k mx = 0) by (intros k ->; unfold nmin; destruct (mx <~ 0) eqn:E; [apply ltI in E; lra|reflexivity]).
  destruct new as [|v new] using rev_ind.
  - destruct (K [] F) as [A B]. unfold jumper_run in *. cbn [fold_left] in *. unfold jumper_step, jumper_update, seal_leak in *. cbn [t_same t_sealed t_flag t_rate t_a t_b l_prev l_rate l_flag] in *. destruct (negb _); cbn [fst snd l_cond l_flag] in *; apply Z0; exact A.
  - clear IHnew. apply Forall_app in F. destruct F as [F1 F2]. inversion F2 as [|? ? [V1 V2] _]; subst. destruct (K new F1) as [A B]. unfold jumper_run in *. rewrite app_comm_cons, fold_left_app. set (s2 := fold_left (jumper_step sqrt powR mx minp) (mkjs true 1 false true g g :: new) s) in *. clearbody s2. cbn [fold_left].
    unfold jumper_step, jumper_update, seal_leak. rewrite V1, V2. destruct (t_same v); [reflexivity|]. cbn [l_prev l_rate l_flag neqb RNum]. rewrite B.
    assert (E : Reqb 1 1 = true) by (destruct (Reqb_spec 1 1); [reflexivity|lra]). rewrite E. cbn [negb snd l_flag l_cond]. destruct (t_flag v); [apply Z0; exact A|reflexivity].
Qed.
(** Refuted: a rate commanded while the malfunction is off is taken up only when it is turned on: the leak
    conducts as the nodes were then. *)
Theorem C230_off_refuted : exists mx minp (u v : jstep R) (s : jleak R * R), 0 < mx /\ t_flag u = false /\ t_flag v = true /\ t_rate u = t_rate v /\
  d_p (t_a u) = d_p (t_b u) /\ snd (jrunR mx minp [v] s) <> 0 /\ snd (jrunR mx minp [u; v] s) = 0.
Proof.
  set (g := mkfl 100 300 1 28 true 1 1 1 : @fl R). set (h := mkfl 50 300 1 28 true 1 1 1 : @fl R).
  exists 1, 0, (mkjs false 1 false true g g), (mkjs true 1 false true g h), (mkjl false 0 0 0, 0). refine (conj _ (conj eq_refl (conj eq_refl (conj eq_refl (conj eq_refl (conj _ _)))))); [lra| |].
  - pose proof Reps_small as E1. pose proof Reps_pos as E0.
    assert (AB : Rabs (d_p g - d_p h) = 50) by (cbn; rewrite Rabs_pos_eq; lra).
    assert (RH : flow_rho g h = 1) by (unfold flow_rho; cbn; lra).
    assert (P : 0 < predR 1 0 g h half).
    { rewrite predict_eq by (rewrite ?AB, ?RH; lra). apply Rmult_lt_0_compat; [rewrite Rabs_R1; lra|]. apply Rinv_0_lt_compat, powR_pos. rewrite RH. unfold lin_drop. rewrite AB. rewrite Rmax_right; lra. }
    unfold jumper_run. cbn [fold_left]. unfold jumper_step, jumper_update, seal_leak. cbn [t_same t_sealed t_flag t_rate t_a t_b l_prev l_rate l_flag l_cond fst snd neqb RNum].
    assert (E : Reqb 0 1 = false) by (destruct (Reqb_spec 0 1); [lra|reflexivity]). rewrite E. cbn [negb snd l_flag l_cond]. unfold nmin. destruct (1 <~ _); [lra|]. apply Rgt_not_eq. exact P.
  - unfold jumper_run. cbn [fold_left]. unfold jumper_step, jumper_update, seal_leak. cbn [t_same t_sealed t_flag t_rate t_a t_b l_prev l_rate l_flag l_cond fst snd neqb RNum].
    assert (E : Reqb 0 1 = false) by (destruct (Reqb_spec 0 1); [lra|reflexivity]). rewrite E. cbn [negb fst snd l_flag l_cond l_prev].
    assert (E1 : Reqb 1 1 = true) by (destruct (Reqb_spec 1 1); [reflexivity|lra]). rewrite E1. cbn [negb fst snd l_flag l_cond l_prev].
    unfold predict_cond. destruct (neps <~ nabs (d_p g -~ d_p g)) eqn:Q; [exfalso; apply ltI in Q; change (nabs (d_p g -~ d_p g)) with (Rabs (100 - 100)) in Q; change (neps : R) with Reps in Q; pose proof Reps_pos; rewrite Rminus_diag_eq, Rabs_R0 in Q by reflexivity; lra|].
    cbn [andb]. unfold nmin. destruct (1 <~ n0) eqn:W; [apply ltI in W; cbn in W; lra|reflexivity].
Qed.
Print Assumptions C230_bounded.
Print Assumptions C230_states.
Print Assumptions C230_socket.
Print Assumptions C230_rate.
Print Assumptions C230_remembers.
Print Assumptions C230_starts_refuted.
Print Assumptions C230_off_refuted.
