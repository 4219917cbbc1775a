(** C232, C233: the internal power supply. *)
From Coq Require Import Floats.
From Coq Require Import Reals Lra Lia List Arith Bool ZArith.
From Verif Require Import Num Ord MathUtil Props_Math FluidFlow Props_FluidFlow Spec_Valve Props_Valve Props_Detector Ips.
Import ListNotations.
Local Open Scope R_scope.

(** ** The loops over the inputs *)
Lemma scanR (tol : R) ok good vs : 0 <= tol -> forall i s,
  let r := scan tol ok good vs i s in
  snd s <= snd r /\
  (r = s \/ exists j, (j < length vs)%nat /\ fst r = Some (i + j)%nat /\ snd r = nth j vs 0 /\ ok (i + j)%nat = true /\ good (nth j vs 0) = true /\ snd s + tol < nth j vs 0) /\
  (forall j, (j < length vs)%nat -> ok (i + j)%nat = true -> good (nth j vs 0) = true -> nth j vs 0 <= snd r + tol).
Proof.
  intro T0. induction vs as [|v vs IH]; intros i s; cbv zeta; cbn [scan length].
  - split; [lra|]. split; [now left|]. intros j J. lia.
  - set (s1 := if ok i && (good v && (tol <~ v -~ snd s)) then (Some i, v) else s).
    assert (A : s1 = s /\ (ok i = true -> good v = true -> v <= snd s + tol) \/ s1 = (Some i, v) /\ ok i = true /\ good v = true /\ snd s + tol < v).
    { unfold s1. destruct (ok i); [|left; split; [reflexivity|discriminate]]. destruct (good v); [|left; split; [reflexivity|discriminate]]. cbn [andb].
      destruct (tol <~ v -~ snd s) eqn:E; [right|left]; (split; [reflexivity|]); [apply ltI in E|assert (~ tol < v - snd s) by (intro Z0; apply ltI in Z0; cbn [nsub RNum] in E; congruence); intros; lra].
      cbn [nsub RNum] in E. repeat split; lra. }
    clearbody s1. specialize (IH (S i) s1). cbv zeta in IH. destruct IH as (I1 & I2 & I3). set (r := scan tol ok good vs (S i) s1) in *. clearbody r.
    split; [|split].
    + destruct A as [[-> _]|(-> & _ & _ & A)]; cbn [snd] in *; lra.
    + destruct I2 as [->|(j & J & B1 & B2 & B3 & B4 & B5)].
      * destruct A as [[-> _]|(-> & A1 & A2 & A3)]; [now left|]. right. exists 0%nat. rewrite Nat.add_0_r. cbn [nth fst snd]. repeat split; auto. lia.
      * right. exists (S j). rewrite Nat.add_succ_r. cbn [nth]. repeat split; auto; [lia|]. destruct A as [[-> _]|(-> & _ & _ & A)]; cbn [snd] in *; lra.
    + intros [|j] J O1 G1; cbn [nth] in *.
      * rewrite Nat.add_0_r in O1. destruct A as [[-> A]|(-> & _ & _ & A)]; cbn [snd] in *; [specialize (A O1 G1)|]; lra.
      * rewrite Nat.add_succ_r in O1. apply I3; [lia|assumption|assumption].
Qed.

(** ** Which input is used *)
(** Without a backup: the source may be used, has at least the under-voltage limit and is within the
    tolerance of the best such source; none is chosen only if none such exceeds the tolerance. *)
Theorem C232_best : forall (c : ipc R) ok active vs j, 0 <= z_tol c -> (forall a, active = Some a -> (a < length vs)%nat) ->
  no_backup c ok active vs = Some j ->
  (j < length vs)%nat /\ ok j = true /\ z_uv c <= nth j vs 0 /\ (forall i, (i < length vs)%nat -> ok i = true -> z_uv c <= nth i vs 0 -> nth i vs 0 <= nth j vs 0 + z_tol c).
Proof.
  intros c ok active vs j T0 RG. unfold no_backup. cbv zeta. set (s := match active with Some _ => _ | None => _ end).
  assert (S0 : s = (None, 0) \/ exists a, active = Some a /\ s = (Some a, nth a vs 0) /\ ok a = true /\ z_uv c <= nth a vs 0).
  { unfold s. destruct active as [a|]; [|now left]. destruct (ok a) eqn:E; [|now left]. cbn [andb]. destruct (nth a vs n0 <~ z_uv c) eqn:W; [now left|]. right. exists a. repeat split; auto.
    assert (~ nth a vs 0 < z_uv c) by (intro Z0; apply ltI in Z0; cbn [n0 RNum] in W; congruence). lra. }
  clearbody s. pose proof (scanR (z_tol c) ok (fun v => z_uv c <=~ v) vs T0 0 s) as R0. cbv zeta in R0. destruct R0 as (R1 & R2 & R3). set (r := scan _ _ _ _ _ _) in *. clearbody r. intro H.
  assert (G : (j < length vs)%nat /\ ok j = true /\ z_uv c <= nth j vs 0 /\ snd r = nth j vs 0).
  { destruct R2 as [->|(k & K & B1 & B2 & B3 & B4 & B5)].
    - destruct S0 as [->|(a & A1 & -> & A3 & A4)]; cbn [fst snd] in *; [discriminate H|]. injection H as <-. auto.
    - rewrite Nat.add_0_l in *. rewrite B1 in H. injection H as <-. apply leI in B4. auto. }
  destruct G as (G1 & G2 & G3 & G4). repeat split; auto. intros i I O1 V. rewrite <- G4. apply R3; auto. now apply leI.
Qed.
Theorem C232_none : forall (c : ipc R) ok active vs, 0 <= z_tol c -> no_backup c ok active vs = None ->
  forall i, (i < length vs)%nat -> ok i = true -> z_uv c <= nth i vs 0 -> nth i vs 0 <= z_tol c.
Proof.
  intros c ok active vs T0. unfold no_backup. cbv zeta. set (s := match active with Some _ => _ | None => _ end).
  assert (S0 : fst s = None -> snd s = 0) by (unfold s; destruct active as [a|]; [destruct (ok a && _)|]; cbn; congruence || reflexivity).
  clearbody s. pose proof (scanR (z_tol c) ok (fun v => z_uv c <=~ v) vs T0 0 s) as R0. cbv zeta in R0. destruct R0 as (R1 & R2 & R3). set (r := scan _ _ _ _ _ _) in *. clearbody r.
  intros H i I O1 V. assert (E : snd r = 0). { destruct R2 as [->|(k & K & B1 & _)]; [now apply S0|congruence]. }
  specialize (R3 i I O1). rewrite E in R3. assert (G : (z_uv c <=~ nth i vs 0) = true) by now apply leI. specialize (R3 G). lra.
Qed.
(** The source in use is kept while it may be and no other exceeds it by more than the tolerance. *)
Theorem C232_kept : forall (c : ipc R) ok a vs, 0 <= z_tol c -> ok a = true -> z_uv c <= nth a vs 0 ->
  (forall i, (i < length vs)%nat -> ok i = true -> z_uv c <= nth i vs 0 -> nth i vs 0 <= nth a vs 0 + z_tol c) -> no_backup c ok (Some a) vs = Some a.
Proof.
  intros c ok a vs T0 O1 V H. unfold no_backup. cbv zeta. rewrite O1. cbn [andb n0 RNum].
  assert (E : (nth a vs 0 <~ z_uv c) = false) by (destruct (nth a vs 0 <~ z_uv c) eqn:E; [apply ltI in E; lra|reflexivity]). cbn [n0 RNum] in E. rewrite E. cbn [negb].
  pose proof (scanR (z_tol c) ok (fun v => z_uv c <=~ v) vs T0 0 (Some a, nth a vs 0)) as R0. cbv zeta in R0. destruct R0 as (R1 & R2 & R3).
  destruct R2 as [->|(k & K & B1 & B2 & B3 & B4 & B5)]; [reflexivity|]. exfalso. cbn [snd] in B5. rewrite Nat.add_0_l in *. apply leI in B4. specialize (H k K B3 B4). lra.
Qed.
Lemma nth_removelast (vs : list R) i : (i < length vs - 1)%nat -> nth i (removelast vs) 0 = nth i vs 0.
Proof.
  intro I. destruct vs as [|v vs] using rev_ind; [cbn in I; lia|]. rewrite removelast_last. rewrite app_length in I. cbn in I. rewrite app_nth1 by lia. reflexivity.
Qed.
Lemma length_removelast (vs : list R) : length (removelast vs) = (length vs - 1)%nat.
Proof. destruct vs as [|v vs] using rev_ind; [reflexivity|]. rewrite removelast_last, app_length. cbn. lia. Qed.
(** With a backup: a usable primary above the backup threshold is preferred; it is within the tolerance of the
    best such. *)
Theorem C232_primary : forall (c : ipc R) ok vs i, 0 <= z_tol c -> (i < length vs - 1)%nat -> ok i = true -> z_bt c < nth i vs 0 -> z_tol c < nth i vs 0 ->
  exists j, with_backup c ok vs = Some j /\ (j < length vs - 1)%nat /\ ok j = true /\ z_bt c < nth j vs 0 /\ nth i vs 0 <= nth j vs 0 + z_tol c.
Proof.
  intros c ok vs i T0 I O1 V1 V2. unfold with_backup, above_backup.
  pose proof (scanR (z_tol c) ok (fun v => z_bt c <~ v) (removelast vs) T0 0 (None, 0)) as R0. cbv zeta in R0. destruct R0 as (R1 & R2 & R3). rewrite length_removelast in *. cbn [n0 RNum]. set (r := scan _ _ _ _ _ _) in *. clearbody r.
  assert (G : nth i vs 0 <= snd r + z_tol c). { specialize (R3 i I O1). rewrite nth_removelast in R3 by exact I. apply R3. now apply ltI. }
  destruct R2 as [->|(j & J & B1 & B2 & B3 & B4 & B5)]; [cbn in G; lra|]. rewrite Nat.add_0_l in *. rewrite nth_removelast in * by exact J. exists j. rewrite B1. apply ltI in B4. rewrite B2 in G. repeat split; auto.
Qed.
(** Whatever is chosen may be used, and is an input. *)
Theorem C232_usable : forall (c : ipc R) ok vs j, 0 <= z_tol c -> (0 < length vs)%nat -> with_backup c ok vs = Some j -> (j < length vs)%nat /\ ok j = true.
Proof.
  intros c ok vs j T0 L. unfold with_backup, above_backup, above_limit, backup_in_range. cbv zeta. cbn [n0 RNum].
  pose proof (scanR (z_tol c) ok (fun v => z_bt c <~ v) (removelast vs) T0 0 (None, 0)) as R0. cbv zeta in R0. destruct R0 as (_ & R2 & _). set (r := scan _ _ _ _ _ _) in *. clearbody r.
  pose proof (scanR (z_tol c) ok (fun v => z_uv c <~ v) (removelast vs) T0 0 (None, 0)) as Q0. cbv zeta in Q0. destruct Q0 as (_ & Q2 & _). set (q := scan _ _ (fun v => z_uv c <~ v) _ _ _) in *. clearbody q. rewrite length_removelast in *.
  assert (G : forall s : option nat * R, (s = (None, 0) \/ exists k, (k < length vs - 1)%nat /\ fst s = Some (0 + k)%nat /\ ok (0 + k)%nat = true) -> forall m, fst s = Some m -> (m < length vs)%nat /\ ok m = true).
  { intros s [->|(k & K & A & B)] m M; [discriminate M|]. rewrite A in M. injection M as <-. split; [lia|exact B]. }
  assert (GR : r = (None, 0) \/ exists k, (k < length vs - 1)%nat /\ fst r = Some (0 + k)%nat /\ ok (0 + k)%nat = true) by (destruct R2 as [->|(k & K & A & _ & B & _)]; [now left|right; eauto]).
  assert (GQ : q = (None, 0) \/ exists k, (k < length vs - 1)%nat /\ fst q = Some (0 + k)%nat /\ ok (0 + k)%nat = true) by (destruct Q2 as [->|(k & K & A & _ & B & _)]; [now left|right; eauto]).
  clear R2 Q2. pose proof (G r GR) as G1. pose proof (G q GQ) as G2. clear G GR GQ. destruct (fst r) as [m|].
  - intro H. injection H as <-. exact (G1 m eq_refl).
  - destruct (fst q) as [m|].
    + destruct (ok (length vs - 1)%nat) eqn:E3; cbn [andb]; [destruct (z_tol c <~ _)|]; intro H; injection H as <-; try (exact (G2 m eq_refl)). split; [lia|exact E3].
    + destruct (ok (length vs - 1)%nat) eqn:E3; cbn [andb]; [destruct (is_in_range _ _ _)|]; intro H; try discriminate H. injection H as <-. split; [lia|exact E3].
Qed.
Print Assumptions C232_best.
Print Assumptions C232_none.
Print Assumptions C232_kept.
Print Assumptions C232_primary.
Print Assumptions C232_usable.
Definition psu (backup : bool) : ipc float := mkipc 0.1%float 98%float 114%float 60%float 100%float 1e-15%float 1e-10%float 2 backup.
(** Refuted: the backup is used only within its range.  If it exceeds a primary that is above the under-voltage limit
    it is used at any voltage. *)
Theorem C232_range_refuted : exists (c : ipc float) ok vs, with_backup c ok vs = Some 1%nat /\ length vs = 2%nat /\ z_backup c = true /\ (z_bmax c <~ nth 1 vs 0%float) = true /\ (forall i, ok i = true).
Proof. exists (psu true), (fun _ => true), [100; 500]%float. repeat split; vm_compute; reflexivity. Qed.
(** Refuted: with a backup too, the source in use is kept while no other exceeds it by more than the tolerance:
    the choice does not depend on the source in use. *)
Theorem C232_backup_kept_refuted : exists (c : ipc float) ok vs s, s_active s = Some 1%nat /\ s_active (fst (ips_confirm c ok vs s)) = Some 0%nat /\ snd (ips_confirm c ok vs s) = true /\
  nth 0 vs 0%float = nth 1 vs 0%float /\ z_backup c = true.
Proof. exists (psu true), (fun _ => true), [120; 120; 80]%float, (mkips (Some 1%nat) 0 true). repeat split; vm_compute; reflexivity. Qed.
Print Assumptions C232_range_refuted.
Print Assumptions C232_backup_kept_refuted.

(** ** Rejections *)
Section REJ.
Context {T : Type} {N : Num T}.
Lemma calc_same (c : ipc T) vs (s : ips) : s_active (calc_flow c vs (s_active s) s) = s_active s.
Proof. unfold calc_flow. destruct (s_active s) as [a|] eqn:E; [|reflexivity]. cbn. destruct (n0 <~ _); auto. Qed.
Lemma same_refl a : same a a = true.
Proof. destruct a; cbn; [apply Nat.eqb_refl|reflexivity]. Qed.
(** However often the solution is put to it, it switches inputs no more often than configured; and rejects no
    more often than that, while no potential is negative. *)
Theorem C233_switches : forall (c : ipc T) us act valid, let '(s, n) := ips_confirms c us (mkips act 0 valid, 0%nat) in
  (s_switches s <= z_most c)%nat /\ (Forall (fun u => existsb (fun v => v <~ n0) (snd u) = false) us -> (n <= z_most c)%nat).
Proof.
  intros c us act valid.
  assert (G : forall us (s : ips) n, (s_switches s <= z_most c)%nat -> let r := ips_confirms c us (s, n) in (s_switches (fst r) <= z_most c)%nat /\
     (Forall (fun u => existsb (fun v => v <~ n0) (snd u) = false) us -> (n <= s_switches s)%nat -> (snd r <= s_switches (fst r))%nat)).
  { unfold ips_confirms. induction us0 as [|u us0 IH]; intros s n L; cbv zeta; cbn [fold_left]; [split; [exact L|auto]|].
    set (r := ips_confirm c (fst u) (snd u) (fst (s, n))). cbn [fst snd] in *.
    assert (A : (s_switches (fst r) <= z_most c)%nat /\ (existsb (fun v => v <~ n0) (snd u) = false -> s_switches (fst r) = if snd r then S (s_switches s) else s_switches s)).
    { unfold r, ips_confirm. cbv zeta. destruct (Nat.ltb_spec (s_switches s) (z_most c)) as [W|W].
      - set (src := if z_backup c then _ else _). assert (X : s_switches (calc_flow c (snd u) src s) = s_switches s) by (unfold calc_flow; destruct src; reflexivity).
        destruct (same _ _); cbn [fst snd s_switches]; rewrite X; (split; [lia|]); intro E; [rewrite E|]; reflexivity.
      - rewrite calc_same, same_refl. cbn [fst snd]. assert (X : s_switches (calc_flow c (snd u) (s_active s) s) = s_switches s) by (unfold calc_flow; destruct (s_active s); reflexivity). rewrite X. split; [exact L|]. intro E. now rewrite E. }
    clearbody r. destruct A as [A1 A2]. specialize (IH (fst r) (if snd r then S n else n) A1). cbv zeta in IH. destruct IH as [I1 I2]. split; [exact I1|].
    intros F M. inversion F as [|? ? F1 F2]; subst. apply I2; [exact F2|]. rewrite (A2 F1). destruct (snd r); lia. }
  pose proof (G us (mkips act 0 valid) 0%nat) as H. cbv zeta in H. destruct (ips_confirms c us _) as [s n]. cbn [fst snd s_switches] in H. destruct (H (Nat.le_0_l _)) as [H1 H2]. split; [exact H1|]. intro F. specialize (H2 F (le_n 0)). lia.
Qed.
(** A solution is rejected exactly if the input in use changes or some potential is negative. *)
Theorem C233_rejects : forall (c : ipc T) ok vs s, let '(t, rej) := ips_confirm c ok vs s in
  rej = true <-> s_active t <> s_active s \/ exists v, In v vs /\ (v <~ n0) = true.
Proof.
  intros c ok vs s. unfold ips_confirm. cbv zeta. set (t := calc_flow _ _ _ _).
  assert (Q : same (s_active s) (s_active t) = true <-> s_active t = s_active s) by (destruct (s_active s), (s_active t); cbn; rewrite ?Nat.eqb_eq; split; intro; congruence || discriminate || auto).
  destruct (same (s_active s) (s_active t)); cbn [s_active].
  - rewrite existsb_exists. split; [auto|]. intros [H|H]; [|exact H]. exfalso. apply H, Q. reflexivity.
  - split; [|reflexivity]. intros _. left. intro H. apply Q in H. discriminate H.
Qed.
End REJ.
Print Assumptions C233_switches.
Print Assumptions C233_rejects.

(** ** What it draws and reports *)
(** The input in use draws the load to within the conductance tolerance, the others nothing but that of
    their unselected conductance. *)
Theorem C233_draws : forall (c : ipc R) p active act vs i, 0 <= z_ctol c -> length act = length vs -> (i < length vs)%nat ->
  let g := nth i (fst (update_adm c act (conductances c p active vs))) 0 in let v := nth i vs 0 in
  (active = Some i -> Reps < v -> Rabs (v * g * v - p) <= z_ctol c * (v * v)) /\ (active <> Some i -> Rabs (g - z_unsel c) <= z_ctol c).
Proof.
  intros c p active act vs i T0 L I. cbv zeta. unfold update_adm. cbn [fst].
  set (f := fun x : R * R => if z_ctol c <~ nabs (fst x -~ snd x) then snd x else fst x). set (new := conductances c p active vs).
  assert (LN : length new = length vs) by (unfold new, conductances; rewrite map_length, combine_length, seq_length; lia).
  assert (E : nth i (map f (combine act new)) 0 = f (nth i act 0, nth i new 0)).
  { rewrite (nth_indep _ 0 (f (0, 0))) by (rewrite map_length, combine_length; lia). rewrite map_nth, combine_nth by lia. reflexivity. }
  rewrite E. assert (B : Rabs (f (nth i act 0, nth i new 0) - nth i new 0) <= z_ctol c).
  { unfold f. cbn [fst snd]. destruct (z_ctol c <~ _) eqn:W; [rewrite Rminus_diag_eq, Rabs_R0 by reflexivity; exact T0|]. assert (~ z_ctol c < Rabs (nth i act 0 - nth i new 0)) by (intro Z0; apply ltI in Z0; cbn [nabs nsub RNum] in W; congruence). lra. }
  set (g := f _) in *. clearbody g.
  assert (NW : nth i new 0 = if same active (Some i) && (neps <~ nth i vs 0) then p / (nth i vs 0 * nth i vs 0) else z_unsel c).
  { unfold new, conductances. set (h := fun x : nat * R => _). rewrite (nth_indep _ 0 (h (0%nat, 0))) by (rewrite map_length, combine_length, seq_length; lia). rewrite map_nth, combine_nth by (rewrite seq_length; reflexivity). rewrite seq_nth by exact I. reflexivity. }
  rewrite NW in B. split.
  - intros -> V. rewrite same_refl in B. assert (W : (neps <~ nth i vs 0) = true) by now apply ltI. rewrite W in B. cbn [andb] in B. pose proof Reps_pos.
    set (v := nth i vs 0) in *. replace (v * g * v - p) with ((g - p / (v * v)) * (v * v)) by (field; lra). rewrite Rabs_mult, (Rabs_pos_eq (v * v)) by nra. apply Rmult_le_compat_r; [nra|exact B].
  - intro D. assert (W : same active (Some i) = false) by (destruct active as [a|]; [cbn; apply Nat.eqb_neq; congruence|reflexivity]). rewrite W in B. exact B.
Qed.
(** The flux and power it reports are those of its first input alone. *)
Theorem C233_reports : forall (act vs : list R) v, length act = S (length vs) ->
  ips_flux act (v :: vs) = v * nth 0 act 0 /\ ips_power act (v :: vs) = v * nth 0 act 0 * v.
Proof.
  intros act vs v L.
  assert (Z0 : forall k, (0 < k < length act)%nat -> adm_at act k = 0). { intros k K. unfold adm_at. rewrite Nat.mod_small by lia. destruct (Nat.eqb_spec k 0); [lia|reflexivity]. }
  assert (Z1 : adm_at act 0 = nth 0 act 0) by (unfold adm_at; rewrite Nat.mod_small, Nat.div_small by lia; reflexivity).
  assert (GF : forall vs k x, (0 < k)%nat -> (k + length vs <= length act)%nat -> fold_left (fun f y => f +~ snd y *~ adm_at act (fst y)) (combine (seq k (length vs)) vs) x = x).
  { induction vs0 as [|w vs0 IH]; intros k x K1 K2; cbn [length seq combine fold_left fst snd] in *; [reflexivity|]. rewrite IH by lia. rewrite Z0 by lia. cbn [nadd nmul RNum]. ring. }
  assert (GP : forall vs k x, (0 < k)%nat -> (k + length vs <= length act)%nat -> fold_left (fun f y => f +~ snd y *~ adm_at act (fst y) *~ snd y) (combine (seq k (length vs)) vs) x = x).
  { induction vs0 as [|w vs0 IH]; intros k x K1 K2; cbn [length seq combine fold_left fst snd] in *; [reflexivity|]. rewrite IH by lia. rewrite Z0 by lia. cbn [nadd nmul RNum]. ring. }
  unfold ips_flux, ips_power. cbn [length seq combine fold_left fst snd]. rewrite GF, GP, Z1 by lia. cbn [nadd nmul n0 RNum]. split; ring.
Qed.
Print Assumptions C233_draws.
Print Assumptions C233_reports.
(** Refuted: the reported power is that drawn.  From the second input the link draws 100 W and reports next to
    nothing. *)
Theorem C233_power_refuted : exists (c : ipc float) p vs act, act = fst (update_adm c [0; 0]%float (conductances c p (Some 1%nat) vs)) /\ p = 100%float /\
  (nth 1 vs 0 *~ nth 1 act 0 *~ nth 1 vs 0)%float = 100%float /\ (ips_power act vs <~ 1e-9)%float = true.
Proof. exists (psu false), 100%float, [100; 100]%float. eexists. split; [reflexivity|]. repeat split; vm_compute; reflexivity. Qed.
(** Refuted: the power is valid while an input is in use.  At the under-voltage limit an input is used but
    its power is not valid. *)
Theorem C233_valid_refuted : exists (c : ipc float) ok vs s, let t := fst (ips_confirm c ok vs s) in s_active t = Some 0%nat /\ s_valid t = false /\ snd (ips_confirm c ok vs s) = false.
Proof. exists (psu false), (fun _ => true), [98; 0]%float, (mkips (Some 0%nat) 0 true). repeat split; vm_compute; reflexivity. Qed.
Print Assumptions C233_power_refuted.
Print Assumptions C233_valid_refuted.
(** Premises of the theorems on the choice. *)
Example C232_any : no_backup (psu false) (fun _ => true) (Some 0%nat) [120; 120.5]%float = Some 1%nat /\ no_backup (psu false) (fun _ => true) (Some 0%nat) [120; 120.05]%float = Some 0%nat /\
  no_backup (psu false) (fun i => negb (Nat.eqb i 1)) (Some 1%nat) [90; 120.05]%float = None /\ with_backup (psu true) (fun _ => true) [90; 80]%float = Some 1%nat.
Proof. repeat split; vm_compute; reflexivity. Qed.
(** The load is the sum of its own and both auxiliary powers, or the one that was put in its place. *)
Theorem C233_load : forall extra on one two : R, (0 < extra -> power_load extra on one two = extra) /\ (extra <= 0 -> power_load extra on one two = on + one + two).
Proof. intros. unfold power_load. split; intro H; destruct (n0 <~ extra) eqn:E; try reflexivity; [apply ltN in E|apply ltI in E]; cbn in E; lra. Qed.
Print Assumptions C233_load.
(** The admittances change only if that is flagged, and it is flagged only if some input's conductance is off by
    more than the tolerance. *)
Theorem C233_flag : forall (c : ipc R) act new, length act = length new -> let r := update_adm c act new in
  (snd r = false -> fst r = act) /\ (snd r = true <-> exists i, (i < length act)%nat /\ z_ctol c < Rabs (nth i act 0 - nth i new 0)).
Proof.
  intros c act new L. cbv zeta. unfold update_adm. cbn [fst snd]. split.
  - revert new L. induction act as [|a act IH]; intros [|w new] L; cbn [combine map existsb fst snd] in *; try reflexivity; try discriminate L. intro H. apply orb_false_iff in H. destruct H as [H1 H2]. rewrite H1. f_equal. apply IH; [now injection L|exact H2].
  - rewrite existsb_exists. split.
    + intros ([x y] & I & H). apply (In_nth _ _ (0, 0)) in I. destruct I as (i & J & E). rewrite combine_length in J. rewrite combine_nth in E by exact L. injection E as <- <-. exists i. split; [lia|]. now apply ltI in H.
    + intros (i & I & H). exists (nth i act 0, nth i new 0). split; [rewrite <- combine_nth by exact L; apply nth_In; rewrite combine_length; lia|]. now apply ltI.
Qed.
Print Assumptions C233_flag.
