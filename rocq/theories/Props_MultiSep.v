(** C226: the separator of several fluids to several ports. *)
From Coq Require Import Floats.
From Coq Require Import Reals Lra Lia List Arith Bool ZArith Permutation.
From Verif Require Import Num Ord MathUtil Props_Math FluidFlow Props_FluidFlow Spec_Valve Props_Valve Props_Detector FluidFan Props_FluidFan MultiSep.
Import ListNotations.

(** ** Which port gets what *)
Local Open Scope nat_scope.
Section EXITS.
Context {T : Type} {N : Num T}.
Lemma exits_some (c : msc) (w : list T) m : forall k exit, k + m <= length (m_idx c) -> k + m <= length exit ->
  ms_exits c w exit (seq (2 + k) m) =
  Some (flat_map (fun q => let '(p, i, e) := q in if neps <~ e *~ nth i w n0 then [(p, i, e *~ nth i w n0)] else [])
          (combine (combine (seq (2 + k) m) (skipn k (m_idx c))) (skipn k exit))).
Proof.
  induction m as [|m IH]; intros k exit A B; [reflexivity|]. cbn [seq ms_exits].
  replace (2 + k - 2) with k by lia. destruct (nth_error exit k) as [e|] eqn:E; [|apply nth_error_None in E; lia].
  destruct (nth_error (m_idx c) k) as [i|] eqn:I; [|apply nth_error_None in I; lia].
  replace (S (2 + k)) with (2 + S k) by lia. rewrite IH by lia.
  assert (SK : forall (X : Type) (l : list X) y j, nth_error l j = Some y -> skipn j l = y :: skipn (S j) l).
  { intros X l y j. revert l. induction j as [|j J]; intros [|z l] H; try discriminate H; cbn in *; [now injection H as ->|]. now apply J. }
  rewrite (SK _ _ _ _ E), (SK _ _ _ _ I). cbn [combine flat_map]. destruct (neps <~ e *~ nth i w n0); reflexivity.
Qed.
Lemma exits_none (c : msc) (w exit : list T) : forall m k, length (m_idx c) < k + m -> 0 < m -> k <= length (m_idx c) -> ms_exits c w exit (seq (2 + k) m) = None.
Proof.
  induction m as [|m IH]; intros k A B C; [lia|]. cbn [seq ms_exits]. replace (2 + k - 2) with k by lia.
  destruct (nth_error exit k); [|reflexivity]. destruct (nth_error (m_idx c) k) eqn:I; [|reflexivity].
  assert (k < length (m_idx c)) by (apply nth_error_Some; congruence).
  replace (S (2 + k)) with (2 + S k) by lia. rewrite IH by lia. reflexivity.
Qed.
(** Port p gets the separated fluid p - 2, whatever port this was configured for. *)
Theorem C226_exits : forall (c : msc) (w exit : list T), m_np c - 2 <= length (m_idx c) -> length exit = length (m_idx c) ->
  ms_exits c w exit (seq 2 (m_np c - 2)) =
  Some (flat_map (fun q => let '(p, i, e) := q in if neps <~ e *~ nth i w n0 then [(p, i, e *~ nth i w n0)] else [])
          (combine (combine (seq 2 (m_np c - 2)) (m_idx c)) exit)).
Proof. intros c w exit A B. apply (exits_some c w (m_np c - 2) 0 exit); lia. Qed.
(** There is a read beyond the array exactly if more ports are there than separated fluids. *)
Theorem C226_defined : forall (c : msc) (w exit : list T), length exit = length (m_idx c) ->
  ms_exits c w exit (seq 2 (m_np c - 2)) = None <-> length (m_idx c) < m_np c - 2.
Proof.
  intros c w exit B. split.
  - intro H. destruct (Nat.lt_ge_cases (length (m_idx c)) (m_np c - 2)) as [L|L]; [exact L|]. rewrite (C226_exits c w exit L B) in H. discriminate H.
  - intro H. apply (exits_none c w exit (m_np c - 2) 0); lia.
Qed.
End EXITS.
Print Assumptions C226_exits.
Print Assumptions C226_defined.
Local Open Scope R_scope.

(** ** Arithmetic of lists *)
Definition total (l : list R) : R := fold_right Rplus 0 l.
Lemma put_S (i : nat) (v a : R) l : put (S i) v (a :: l) = a :: put i v l.
Proof. reflexivity. Qed.
Lemma put_length : forall l i (v : R), length (put i v l) = length l.
Proof. induction l as [|a l IH]; intros [|i] v; try reflexivity. rewrite put_S. cbn. now rewrite IH. Qed.
Lemma nth_put : forall l i j (v : R), (i < length l)%nat -> nth j (put i v l) 0 = if (j =? i)%nat then v else nth j l 0.
Proof.
  induction l as [|a l IH]; intros [|i] [|j] v H; cbn [length] in H; try lia; try reflexivity.
  rewrite put_S. cbn [nth Nat.eqb]. apply IH. lia.
Qed.
Lemma total_put : forall l i (v : R), (i < length l)%nat -> total (put i v l) = total l - nth i l 0 + v.
Proof.
  induction l as [|a l IH]; intros [|i] v H; cbn [length] in H; try lia.
  - cbn. unfold total. lra.
  - rewrite put_S. cbn [total fold_right nth]. fold (total (put i v l)). rewrite IH by lia. unfold total. lra.
Qed.
(** Moles of constituent j in a list of amounts. *)
Definition mol (j : nat) (l : list (nat * R)) : R := fold_right (fun q a => (if (fst q =? j)%nat then snd q else 0) + a) 0 l.
Definition fed (idx : list nat) (frac x : list R) : R := total (map (fun q => snd q * nth (fst q) x 0) (combine idx frac)).

Lemma rest_fold : forall l (s : list R * R), Forall (fun q => (fst q < length (fst s))%nat) l ->
  let s' := fold_left (fun s q => (put (fst q) (nth (fst q) (fst s) n0 -~ snd q) (fst s), snd s -~ snd q)) l s in
  (forall j, nth j (fst s') 0 = nth j (fst s) 0 - mol j l) /\ snd s' = snd s - total (map snd l) /\ length (fst s') = length (fst s) /\
  total (fst s') = total (fst s) - total (map snd l).
Proof.
  induction l as [|[i t] l IH]; intros [work r] F; cbn [fold_left fst snd].
  - cbn. repeat split; intros; lra.
  - inversion_clear F as [|? ? H G]. cbn [fst snd] in *. change (n0 : R) with 0. cbn [nsub RNum].
    specialize (IH (put i (nth i work 0 - t) work, r - t)). cbn [fst snd] in IH. rewrite put_length in IH. specialize (IH G). destruct IH as (A & B & C & D).
    refine (conj _ (conj _ (conj C _))).
    + intro j. etransitivity; [exact (A j)|]. rewrite nth_put by exact H. cbn [mol fold_right fst snd]. fold (mol j l).
      rewrite (Nat.eqb_sym i j). destruct (Nat.eqb_spec j i) as [Q|Q]; [subst j|]; lra.
    + etransitivity; [exact B|]. cbn [map total fold_right snd]. fold (total (map snd l)). lra.
    + etransitivity; [exact D|]. rewrite total_put by exact H. cbn [map total fold_right snd]. fold (total (map snd l)). lra.
Qed.
Lemma total_scale k l : total (map (fun y => k * y) l) = k * total l.
Proof. induction l as [|a l IH]; cbn; [ring|]. fold (total (map (fun y => k * y) l)). rewrite IH. unfold total. ring. Qed.
Lemma nth_scale k l j : nth j (map (fun y => k * y) l) 0 = k * nth j l 0.
Proof. revert j. induction l as [|a l IH]; intros [|j]; cbn; try ring. apply IH. Qed.

(** ** What goes downstream *)
Lemma thru_total c frac x f : 0 <= f -> length frac = length (m_idx c) -> total (map snd (combine (m_idx c) (ms_thru c frac x f))) = f * fed (m_idx c) frac x.
Proof.
  intros P L. unfold ms_thru, fed. cbn [nabs nmul n0 RNum]. rewrite (Rabs_right f) by lra. revert frac L. induction (m_idx c) as [|i l IH]; intros [|a frac] L; cbn [length] in L; try lia.
  - cbn. ring.
  - cbn [combine map fst snd total fold_right]. fold (total (map snd (combine l (map (fun q : nat * R => snd q * f * nth (fst q) x 0) (combine l frac))))).
    rewrite IH by lia. cbn [fst snd]. fold (total (map (fun q : nat * R => snd q * nth (fst q) x 0) (combine l frac))). ring.
Qed.
Lemma in_combine_fst {A B} (a : list A) (b : list B) q : In q (combine a b) -> In (fst q) a.
Proof. destruct q as [u v]. intro H. cbn. eapply in_combine_l, H. Qed.
(** What is left has all constituents of the inflow less what was separated of each. *)
Lemma down_moles c frac x f : 0 <= f -> length frac = length (m_idx c) -> Forall (fun i => (i < length x)%nat) (m_idx c) -> neps < f * (1 - fed (m_idx c) frac x) ->
  let '(rest, y) := ms_down c x (ms_thru c frac x f) f in
  rest = f * (1 - fed (m_idx c) frac x) /\ (forall j, rest * nth j y 0 = f * nth j x 0 - mol j (combine (m_idx c) (ms_thru c frac x f))) /\
  (total x = 1 -> total y = 1).
Proof.
  intros P L I G. pose proof neps_pos as NP. pose proof (thru_total c frac x f P L) as TT.
  unfold ms_down. destruct (m_idx c) as [|i0 r0] eqn:EI.
  - unfold fed. cbn. refine (conj _ (conj _ (fun H => H))); [ring|]. intro j. ring.
  - rewrite <- EI in *. unfold ms_rest.
    pose proof (rest_fold (combine (m_idx c) (ms_thru c frac x f)) (map (fun y => f *~ y) x, f)) as RF. cbn [fst snd] in RF.
    rewrite map_length in RF. assert (FA : Forall (fun q => (fst q < length x)%nat) (combine (m_idx c) (ms_thru c frac x f))).
    { apply Forall_forall. intros q Q. apply in_combine_fst in Q. rewrite Forall_forall in I. now apply I. }
    specialize (RF FA). destruct (fold_left _ _ _) as [work rest]. cbn [fst snd] in RF. destruct RF as (A & B & C & D). rewrite TT in B, D.
    assert (BR : rest = f * (1 - fed (m_idx c) frac x)) by (rewrite B; ring). rewrite <- BR in G.
    assert (X : (neps <~ rest) = true) by (now apply ltI). rewrite X.
    assert (RP : rest <> 0). { intro Q. rewrite Q in G. set (eps := neps : R) in *. clearbody eps. lra. }
    assert (MM : map (fun y => y /~ rest) work = map (fun y => / rest * y) work) by (apply map_ext; intro; cbn [ndiv RNum]; unfold Rdiv; ring).
    refine (conj BR (conj _ _)).
    + intro j. rewrite MM, nth_scale, <- Rmult_assoc, Rinv_r, Rmult_1_l by exact RP. rewrite A. cbn [nmul RNum]. now rewrite nth_scale.
    + intro H1. rewrite MM, total_scale, D. cbn [nmul RNum]. rewrite total_scale, H1. replace (f * 1 - f * fed (m_idx c) frac x) with rest by (rewrite BR; ring). field. exact RP.
Qed.

(** ** Conservation *)
(** Moles of constituent j given to the ports from 2. *)
Definition exit_moles (w : list R) (j : nat) (l : list (nat * nat * R)) : R :=
  total (map (fun q => if (snd (fst q) =? j)%nat then snd q / nth j w 0 else 0) l).
Definition big (w : list R) (q : nat * R) : Prop := nth (fst q) w 0 <> 0 /\ (snd q = 0 \/ neps < snd q * nth (fst q) w 0).
Lemma exit_sum w j : forall ps idx ex, length ps = length idx -> length ex = length idx -> Forall (big w) (combine idx ex) ->
  exit_moles w j (flat_map (fun q => let '(p, i, e) := q in if neps <~ e *~ nth i w n0 then [(p, i, e *~ nth i w n0)] else []) (combine (combine ps idx) ex)) = mol j (combine idx ex).
Proof.
  pose proof neps_pos as NP. induction ps as [|p ps IH]; intros [|i idx] [|e ex] A B F; cbn [length] in *; try lia; [reflexivity|].
  cbn [combine flat_map mol fold_right fst snd]. inversion_clear F as [|? ? H G]. fold (mol j (combine idx ex)). rewrite <- (IH idx ex) by (try lia; assumption).
  unfold exit_moles. rewrite map_app. set (tl := map _ (flat_map _ _)). clearbody tl. change (n0 : R) with 0. destruct H as [H1 H2]. cbn [fst snd] in *.
  destruct H2 as [-> | H2].
  - assert (X : (neps <~ 0 *~ nth i w 0) = false) by (apply ltN; cbn [nmul RNum]; rewrite Rmult_0_l; set (eps := neps : R) in *; clearbody eps; lra). rewrite X. cbn [map app]. destruct (i =? j)%nat; symmetry; apply Rplus_0_l.
  - assert (X : (neps <~ e *~ nth i w 0) = true) by (now apply ltI). rewrite X. cbn [map app total fold_right fst snd]. fold (total tl). f_equal. destruct (Nat.eqb_spec i j) as [Q|Q]; [|reflexivity]. subst j. cbn [nmul RNum]. field. exact H1.
Qed.
(** A pass in which no flow is below the cut-offs. *)
Definition plain (c : msc) (w : list R) (u : mspass R) : Prop :=
  length (s_frac u) = length (m_idx c) /\ Forall (fun i => (i < length (pass_x u))%nat) (m_idx c) /\
  (pass_flux u = 0 \/ (neps < Rabs (pass_flux u) /\ neps < Rabs (pass_flux u) * (1 - fed (m_idx c) (s_frac u) (pass_x u)))) /\
  Forall (fun q => nth (fst q) w 0 <> 0 /\ (snd q * Rabs (pass_flux u) * nth (fst q) (pass_x u) 0 = 0 \/ neps < snd q * Rabs (pass_flux u) * nth (fst q) (pass_x u) 0 * nth (fst q) w 0)) (combine (m_idx c) (s_frac u)).
Lemma mol_zero j : forall idx (l : list R), Forall (fun t => t = 0) l -> mol j (combine idx l) = 0.
Proof. induction idx as [|i idx IH]; intros [|a l] F; cbn [combine]; try reflexivity. inversion_clear F. subst. cbn [mol fold_right fst snd]. fold (mol j (combine idx l)). rewrite IH by assumption. destruct (_ =? _)%nat; lra. Qed.
Lemma thru_abs c frac (x : list R) flux : ms_thru c frac x (nabs flux) = ms_thru c frac x flux.
Proof. unfold ms_thru. apply map_ext. intro q. cbn [nabs RNum]. now rewrite Rabs_Rabsolu. Qed.
Lemma thru_big c w frac x (flux : R) : length frac = length (m_idx c) ->
  Forall (fun q => nth (fst q) w 0 <> 0 /\ (snd q * Rabs flux * nth (fst q) x 0 = 0 \/ neps < snd q * Rabs flux * nth (fst q) x 0 * nth (fst q) w 0)) (combine (m_idx c) frac) ->
  Forall (big w) (combine (m_idx c) (ms_thru c frac x flux)).
Proof.
  unfold ms_thru. intros L. revert frac L. induction (m_idx c) as [|i l IH]; intros [|a frac] L F; cbn [length] in L; try lia; [constructor|].
  inversion_clear F as [|? ? H G]. cbn [combine map fst snd] in *. constructor; [exact H|]. apply IH; [lia|exact G].
Qed.
Theorem C226_pass : forall (c : msc) w thru (u : mspass R),
  (m_np c - 2)%nat = length (m_idx c) -> length thru = length (m_idx c) -> Forall (big w) (combine (m_idx c) thru) -> plain c w u ->
  exists e new, ms_pass c w thru u = Some (e, new) /\ length new = length (m_idx c) /\ Forall (big w) (combine (m_idx c) new) /\
  forall j, nth j (e_out e) 0 = nth j (e_down e) 0 + mol j (combine (m_idx c) new) /\ exit_moles w j (e_exit e) = mol j (combine (m_idx c) thru).
Proof.
  intros c w thru u NPRT LT BT (LF & IX & FX & BX). pose proof neps_pos as NP. unfold ms_pass.
  rewrite (C226_exits c w thru) by lia. set (ex := flat_map _ _).
  assert (EX : forall j, exit_moles w j ex = mol j (combine (m_idx c) thru)) by (intro j; apply exit_sum; [rewrite seq_length; lia|exact LT|exact BT]).
  clearbody ex. eexists. eexists. split; [reflexivity|].
  split; [unfold ms_thru; rewrite map_length, combine_length; lia|]. split; [apply thru_big; assumption|].
  cbn [nabs RNum]. destruct FX as [FX|[FX FR]].
  - rewrite FX, Rabs_R0. assert (X : (neps <~ 0) = false) by (apply ltN; set (eps := neps : R) in *; clearbody eps; lra). rewrite X. cbn [e_out e_down e_exit]. intro j. split; [|apply EX].
    rewrite mol_zero; [destruct j; lra|]. unfold ms_thru. apply Forall_forall. intros t I. apply in_map_iff in I. destruct I as (q & <- & _). cbn [nmul nabs RNum]. rewrite Rabs_R0. ring.
  - assert (X : (neps <~ Rabs (pass_flux u)) = true) by (now apply ltI). rewrite X.
    pose proof (down_moles c (s_frac u) (pass_x u) (Rabs (pass_flux u)) (Rabs_pos _) LF IX FR) as D.
    change (Rabs (pass_flux u)) with (nabs (pass_flux u)) in D. rewrite thru_abs in D. cbn [nabs RNum] in D.
    destruct (ms_down _ _ _ _) as [rest y]. destruct D as (_ & D & _). cbn [e_out e_down e_exit]. intro j. split; [|apply EX].
    cbn [nmul RNum]. rewrite !nth_scale, D. ring.
Qed.
Print Assumptions C226_pass.
(** Over any passes, of each constituent: what was taken from the upstream nodes and was in the buffers is
    what went downstream, what the other ports got, and what is still in the buffers. *)
Theorem C226_conserved : forall (c : msc) w (us : list (mspass R)) thru,
  (m_np c - 2)%nat = length (m_idx c) -> length thru = length (m_idx c) -> Forall (big w) (combine (m_idx c) thru) -> Forall (plain c w) us ->
  exists es thru', ms_run c w thru us = Some (es, thru') /\
  forall j, total (map (fun e => nth j (e_out e) 0) es) + mol j (combine (m_idx c) thru) =
            total (map (fun e => nth j (e_down e) 0) es) + total (map (fun e => exit_moles w j (e_exit e)) es) + mol j (combine (m_idx c) thru').
Proof.
  intros c w us. induction us as [|u us IH]; intros thru A B C F.
  - exists [], thru. split; [reflexivity|]. intro j. cbn. ring.
  - inversion_clear F as [|? ? H G]. destruct (C226_pass c w thru u A B C H) as (e & new & E & L & D & X). destruct (IH new A L D G) as (es & t & E2 & Y).
    exists (e :: es), t. cbn [ms_run]. rewrite E, E2. split; [reflexivity|]. intro j. specialize (X j). specialize (Y j). cbn [map total fold_right].
    change (fold_right Rplus 0) with total. destruct X as [X1 X2]. rewrite X1, X2. lra.
Qed.
Print Assumptions C226_conserved.
(** The fractions given downstream sum to one if those of the inflow do, so they are never refused. *)
Theorem C226_fractions : forall c frac x f, 0 <= f -> length frac = length (m_idx c) -> Forall (fun i => (i < length x)%nat) (m_idx c) -> neps < f * (1 - fed (m_idx c) frac x) ->
  total x = 1 -> total (snd (ms_down c x (ms_thru c frac x f) f)) = 1 /\ fst (ms_down c x (ms_thru c frac x f) f) = f * (1 - fed (m_idx c) frac x).
Proof. intros c frac x f A B C D E. pose proof (down_moles c frac x f A B C D) as X. destruct (ms_down _ _ _ _) as [rest y]. cbn [fst snd]. destruct X as (X1 & _ & X2). auto. Qed.
Print Assumptions C226_fractions.

(** ** The source vector *)
Definition src_step (fwd : bool) (s : list R) (q : nat * R) : list R :=
  put (fst q) (snd q) (let d := if fwd then 1%nat else 0%nat in put d (nth d s n0 -~ snd q) s).
Lemma src_fold fwd : forall l s, NoDup (map fst l) -> Forall (fun q => (2 <= fst q < length s)%nat) l ->
  let s' := fold_left (src_step fwd) l s in
  length s' = length s /\ total s' = total s - total (map (fun q => nth (fst q) s 0) l) /\
  (forall p t, In (p, t) l -> nth p s' 0 = t) /\ (forall p, (2 <= p)%nat -> ~ In p (map fst l) -> nth p s' 0 = nth p s 0) /\
  nth (if fwd then 1 else 0) s' 0 = nth (if fwd then 1 else 0) s 0 - total (map snd l) /\ nth (if fwd then 0 else 1) s' 0 = nth (if fwd then 0 else 1) s 0.
Proof.
  induction l as [|[p t] l IH]; intros s ND F; cbn [fold_left].
  - cbn. repeat split; intros; try lra; contradiction.
  - inversion_clear F as [|? ? H G]. cbn [map fst] in ND. inversion_clear ND as [|? ? NI ND']. cbn [fst] in H.
    set (s1 := src_step fwd s (p, t)).
    assert (DL : ((if fwd then 1 else 0) < 2)%nat) by (destruct fwd; lia).
    set (d := (if fwd then 1 else 0)%nat) in *. set (d' := (if fwd then 0 else 1)%nat).
    assert (DD : d' <> d /\ (d' < 2)%nat) by (unfold d, d'; destruct fwd; lia).
    assert (L1 : length s1 = length s) by (unfold s1, src_step; now rewrite !put_length).
    assert (N1 : forall q, nth q s1 0 = if (q =? p)%nat then t else if (q =? d)%nat then nth d s 0 - t else nth q s 0).
    { intro q. unfold s1, src_step. cbn [fst snd]. fold d. rewrite nth_put by (rewrite put_length; lia). rewrite nth_put by lia. reflexivity. }
    assert (T1 : total s1 = total s - nth p s 0).
    { unfold s1, src_step. cbn [fst snd]. fold d. rewrite total_put by (rewrite put_length; lia). rewrite nth_put by lia. rewrite total_put by lia.
      replace (p =? d)%nat with false by (symmetry; apply Nat.eqb_neq; lia). change (n0 : R) with 0. cbn [nsub RNum]. lra. }
    assert (F1 : Forall (fun q => (2 <= fst q < length s1)%nat) l) by (rewrite L1; exact G).
    destruct (IH s1 ND' F1) as (A & B & C & D & E & E').
    assert (M : map (fun q => nth (fst q) s1 0) l = map (fun q => nth (fst q) s 0) l).
    { apply map_ext_in. intros [q v] I. cbn [fst]. rewrite N1. rewrite Forall_forall in G. specialize (G _ I). cbn [fst] in G.
      replace (q =? p)%nat with false by (symmetry; apply Nat.eqb_neq; intros ->; apply NI; now apply (in_map fst) in I).
      replace (q =? d)%nat with false by (symmetry; apply Nat.eqb_neq; lia). reflexivity. }
    refine (conj _ (conj _ (conj _ (conj _ (conj _ _))))).
    + now rewrite A.
    + etransitivity; [exact B|]. rewrite M, T1. cbn [map total fold_right fst]. fold (total (map (fun q => nth (fst q) s 0) l)). lra.
    + intros q v [I|I]; [|now apply C]. injection I as -> ->. etransitivity; [apply D; [lia|exact NI]|]. rewrite N1, Nat.eqb_refl. reflexivity.
    + intros q Q NQ. cbn [map fst] in NQ. etransitivity; [apply D; [exact Q|intro; apply NQ; now right]|]. rewrite N1.
      replace (q =? p)%nat with false by (symmetry; apply Nat.eqb_neq; intros ->; apply NQ; now left). replace (q =? d)%nat with false by (symmetry; apply Nat.eqb_neq; lia). reflexivity.
    + etransitivity; [exact E|]. rewrite N1, Nat.eqb_refl. replace (d =? p)%nat with false by (symmetry; apply Nat.eqb_neq; lia). cbn [map total fold_right snd]. fold (total (map snd l)). lra.
    + etransitivity; [exact E'|]. fold d'. rewrite N1. replace (d' =? p)%nat with false by (symmetry; apply Nat.eqb_neq; lia). replace (d' =? d)%nat with false by (symmetry; apply Nat.eqb_neq; lia). reflexivity.
Qed.
Lemma combine_fst {A B} : forall (a : list A) (b : list B), length b = length a -> map fst (combine a b) = a.
Proof. induction a as [|x a IH]; intros [|y b] H; cbn in *; try lia; [reflexivity|]. now rewrite IH by lia. Qed.
Lemma combine_snd {A B} : forall (a : list A) (b : list B), length b = length a -> map snd (combine a b) = b.
Proof. induction a as [|x a IH]; intros [|y b] H; cbn in *; try lia; [reflexivity|]. now rewrite IH by lia. Qed.
Lemma total_perm a b : Permutation a b -> total a = total b.
Proof. induction 1; cbn; fold total in *; change (fold_right Rplus 0) with total; lra. Qed.
Lemma map_nth_seq (l : list R) : map (fun p => nth p l 0) (seq 0 (length l)) = l.
Proof. induction l as [|a l IH]; cbn; [reflexivity|]. f_equal. rewrite <- seq_shift, map_map. exact IH. Qed.
(** With one separated fluid for each port from 2 the sources of all ports sum to zero: each such port has
    what was separated of its fluid, and the downstream port loses all of it. *)
Theorem C226_source : forall (c : msc) fwd thru src, (2 <= m_np c)%nat -> Permutation (m_port c) (seq 2 (m_np c - 2)) -> length thru = length (m_port c) -> length src = m_np c ->
  let s := ms_source c fwd thru src in
  total s = 0 /\ (forall p t, In (p, t) (combine (m_port c) thru) -> nth p s 0 = t) /\
  nth (if fwd then 1 else 0) s 0 = - total thru /\ nth (if fwd then 0 else 1) s 0 = 0.
Proof.
  intros c fwd thru src N2 P L LS. cbv zeta. unfold ms_source. change (n0 : R) with 0. set (s0 := put 1 0 (put 0 0 src)).
  assert (L0 : length s0 = m_np c) by (unfold s0; rewrite !put_length; exact LS).
  assert (ND : NoDup (map fst (combine (m_port c) thru))) by (rewrite combine_fst by exact L; eapply Permutation_NoDup; [symmetry; exact P|apply seq_NoDup]).
  assert (F : Forall (fun q => (2 <= fst q < length s0)%nat) (combine (m_port c) thru)).
  { apply Forall_forall. intros q Q. apply in_combine_fst in Q. apply (Permutation_in _ P) in Q. apply in_seq in Q. lia. }
  pose proof (src_fold fwd _ s0 ND F) as (A & B & C & _ & E & E').
  assert (Z0 : nth 0 s0 0 = 0) by (unfold s0; rewrite !nth_put by (rewrite ?put_length; lia); reflexivity).
  assert (Z1 : nth 1 s0 0 = 0) by (unfold s0; rewrite !nth_put by (rewrite ?put_length; lia); reflexivity).
  refine (conj _ (conj _ (conj _ _))).
  - etransitivity; [exact B|]. replace (map (fun q => nth (fst q) s0 0) (combine (m_port c) thru)) with (map (fun p => nth p s0 0) (m_port c)).
    2:{ rewrite <- (combine_fst (m_port c) thru L) at 1. now rewrite map_map. }
    rewrite (total_perm _ _ (Permutation_map (fun p => nth p s0 0) P)). rewrite <- (map_nth_seq s0) at 1. rewrite L0.
    replace (m_np c) with (S (S (m_np c - 2))) at 1 by lia. cbn [seq map total fold_right]. rewrite Z0, Z1. unfold total. ring.
  - exact C.
  - etransitivity; [exact E|]. rewrite (combine_snd (m_port c) thru L). destruct fwd; rewrite ?Z0, ?Z1; ring.
  - etransitivity; [exact E'|]. destruct fwd; rewrite ?Z0, ?Z1; reflexivity.
Qed.
Print Assumptions C226_source.

(** ** The flow, and what is accepted *)
(** The flow is the admittance times the drop, from the side of the higher potential; it is cut to zero when
    the drop is in the noise of the higher potential. *)
Theorem C226_flux : forall u : mspass R, let d := s_p0 u - s_p1 u in let noise := Rmax (s_p0 u) (s_p1 u) * (100 * neps) in
  (noise <= Rabs d -> pass_flux u = s_a u * d) /\ (Rabs d < noise -> pass_flux u = 0) /\
  (0 < s_a u -> noise <= Rabs d -> pass_x u = if Rlt_dec d 0 then s_x1 u else s_x0 u).
Proof.
  intro u. cbv zeta.
  assert (E100 : (ndec 100 0 : R) = 100) by (cbn [ndec RNum]; unfold Rdec; cbn [Z.leb Z.compare]; change (100 * 10 ^ 0)%Z with 100%Z; reflexivity).
  assert (MX : nmax (s_p0 u) (s_p1 u) = Rmax (s_p0 u) (s_p1 u)).
  { apply fan_max. }
  assert (FL : Rmax (s_p0 u) (s_p1 u) * (100 * neps) <= Rabs (s_p0 u - s_p1 u) -> pass_flux u = s_a u * (s_p0 u - s_p1 u)).
  { intro H. unfold pass_flux, ms_flux. rewrite MX, E100. assert (X : (nabs (s_p0 u -~ s_p1 u) <~ Rmax (s_p0 u) (s_p1 u) *~ (100 *~ neps)) = false) by (apply ltN; exact H). rewrite X. cbn [nmul nsub RNum]. ring. }
  refine (conj FL (conj _ _)).
  - intro H. unfold pass_flux, ms_flux. rewrite MX, E100. assert (X : (nabs (s_p0 u -~ s_p1 u) <~ Rmax (s_p0 u) (s_p1 u) *~ (100 *~ neps)) = true) by (apply ltI; exact H). rewrite X. reflexivity.
  - intros A H. unfold pass_x, ms_up. rewrite (FL H). destruct (Rlt_dec (s_p0 u - s_p1 u) 0) as [L|L].
    + assert (X : (s_a u * (s_p0 u - s_p1 u) <~ n0) = true) by (apply ltI; change (n0 : R) with 0; nra). rewrite X. reflexivity.
    + assert (X : (s_a u * (s_p0 u - s_p1 u) <~ n0) = false) by (apply ltN; change (n0 : R) with 0; nra). rewrite X. reflexivity.
Qed.
Print Assumptions C226_flux.
Lemma distinct_iff l : distinct l = true <-> NoDup l.
Proof.
  induction l as [|i l IH]; cbn [distinct]; [split; [constructor|reflexivity]|]. rewrite andb_true_iff, IH, negb_true_iff. split.
  - intros [A B]. constructor; [|exact B]. intro I. assert (X : existsb (Nat.eqb i) l = true) by (apply existsb_exists; exists i; split; [exact I|apply Nat.eqb_refl]). congruence.
  - intro H. inversion_clear H as [|? ? A B]. split; [|exact B]. apply not_true_iff_false. intro X. apply existsb_exists in X. destruct X as (k & I & Q). apply Nat.eqb_eq in Q. subst k. contradiction.
Qed.
(** Accepted are three ports or more, at least one type, as many ports and fractions as types, no type
    twice, ports from 2, types of the network and fractions of 0 to 1. *)
Theorem C226_accepts : forall nc c (frac : list R), ms_valid nc c frac = true <->
  (3 <= m_np c)%nat /\ (1 <= length (m_idx c) + m_tc c)%nat /\ length (m_port c) = length (m_idx c) /\ length frac = length (m_idx c) /\
  NoDup (m_idx c) /\ Forall (fun p => (2 <= p < m_np c)%nat) (m_port c) /\ Forall (fun i => (i < nc)%nat) (m_idx c) /\ Forall (fun f => 0 <= f <= 1) frac.
Proof.
  intros nc c frac. unfold ms_valid. rewrite !andb_true_iff, !negb_true_iff, !Nat.ltb_ge, !Nat.eqb_eq, distinct_iff, !forallb_forall, !Forall_forall. split.
  - intros [[[[[[[A B] C] D] E] F] G] H]. refine (conj A (conj B (conj _ (conj _ (conj E (conj _ (conj _ _))))))); [lia|lia| | |].
    + intros p I. specialize (F p I). apply andb_true_iff in F. destruct F as [F1 F2]. apply Nat.leb_le in F1, F2. lia.
    + intros i I. apply Nat.ltb_lt, G, I.
    + intros f I. specialize (H f I). unfold is_in_range in H. apply andb_true_iff in H. destruct H as [H1 H2]. apply leI in H1, H2. exact (conj H1 H2).
  - intros (A & B & C & D & E & F & G & H). refine (conj (conj (conj (conj (conj (conj (conj A B) _) _) E) _) _) _); [lia|lia| | |].
    + intros p I. specialize (F p I). apply andb_true_iff. split; apply Nat.leb_le; lia.
    + intros i I. apply Nat.ltb_lt, G, I.
    + intros f I. specialize (H f I). destruct H. unfold is_in_range. apply andb_true_iff. split; apply leI; assumption.
Qed.
Print Assumptions C226_accepts.

(** ** Refutations *)
(** Refuted: each separated fluid goes to the port it is configured for.  With the ports of two fluids
    swapped the solution moves each amount at its configured port, the fluids go to the other one. *)
Theorem C226_ports_refuted : exists (c : msc) (w thru src : list float) ex, ms_valid 2 c [1; 1]%float = true /\ ms_exits c w thru (seq 2 (m_np c - 2)) = Some ex /\
  combine (m_idx c) (m_port c) = [(0, 3); (1, 2)]%nat /\ map fst ex = [(2, 0); (3, 1)]%nat /\
  nth 3 (ms_source c true thru src) 0%float = 1%float /\ nth 2 (ms_source c true thru src) 0%float = 2%float.
Proof.
  exists (mkmsc 4 [0; 1]%nat [3; 2]%nat 0), [18; 44]%float, [1; 2]%float, [0; 0; 0; 0]%float. eexists.
  split; [vm_compute; reflexivity|]. split; [vm_compute; reflexivity|]. vm_compute. auto.
Qed.
Print Assumptions C226_ports_refuted.
(** Refuted: an accepted separator transports without reads beyond its arrays.  A port for a trace compound
    is enough. *)
Theorem C226_extra_port_refuted : exists (c : msc) (w thru : list float) u, ms_valid 2 c (s_frac u) = true /\ length thru = length (m_idx c) /\ ms_pass c w thru u = None.
Proof.
  exists (mkmsc 4 [0]%nat [2]%nat 1), [18; 44]%float, [0]%float, (mkmsp 2%float 1%float 1%float [1; 0]%float [1; 0]%float [1]%float).
  split; [vm_compute; reflexivity|]. split; [reflexivity|]. vm_compute. reflexivity.
Qed.
Print Assumptions C226_extra_port_refuted.
(** Refuted: what is separated comes out.  Of two fluids with the same port only the first is given to
    it, and the sources do not sum to zero. *)
Theorem C226_shared_refuted : exists (c : msc) (w thru src : list float) ex, ms_valid 2 c [1; 1]%float = true /\ m_port c = [2; 2]%nat /\
  nth 1 thru 0%float = 2%float /\ ms_exits c w thru (seq 2 (m_np c - 2)) = Some ex /\ map fst ex = [(2, 0)]%nat /\
  ms_source c true thru src = [0; -3; 2]%float.
Proof.
  exists (mkmsc 3 [0; 1]%nat [2; 2]%nat 0), [18; 44]%float, [1; 2]%float, [0; 0; 0]%float. eexists.
  split; [vm_compute; reflexivity|]. split; [reflexivity|]. split; [reflexivity|]. split; [vm_compute; reflexivity|]. vm_compute. auto.
Qed.
Print Assumptions C226_shared_refuted.
(** The hypotheses of conservation hold for an accepted separator with a flow. *)
Example C226_plain_ex : exists (c : msc) w (u : mspass R), (m_np c - 2 = length (m_idx c))%nat /\ plain c w u /\ pass_flux u = 1.
Proof.
  assert (E100 : (ndec 100 0 : R) = 100) by (cbn [ndec RNum]; unfold Rdec; cbn [Z.leb Z.compare]; change (100 * 10 ^ 0)%Z with 100%Z; reflexivity).
  assert (RS : (neps : R) = Reps) by reflexivity. pose proof Reps_pos. pose proof Reps_small.
  set (u := mkmsp 2 1 1 [1 / 2; 1 / 2] [1; 0] [1 / 2]).
  assert (FL : pass_flux u = 1).
  { unfold pass_flux, ms_flux, u. cbn [s_p0 s_p1 s_a]. assert (MX : nmax (2 : R) 1 = 2) by (unfold nmax; assert (X : ((2 : R) <~ 1) = false) by (apply ltN; lra); rewrite X; reflexivity). rewrite MX, E100, RS. assert (X : (nabs ((2 : R) -~ 1) <~ 2 *~ (100 *~ Reps)) = false).
    { apply ltN. cbn [nsub nabs nmul RNum]. rewrite Rabs_right by lra. lra. } rewrite X. cbn [nmul nsub RNum]. lra. }
  exists (mkmsc 3 [0]%nat [2]%nat 0), [18; 44], u. split; [reflexivity|]. split; [|exact FL].
  assert (PX : pass_x u = [1 / 2; 1 / 2]). { unfold pass_x, ms_up. rewrite FL. assert (X : ((1 : R) <~ n0) = false) by (apply ltN; change (n0 : R) with 0; lra). rewrite X. reflexivity. }
  unfold plain. rewrite FL, PX, RS, Rabs_R1. cbn [m_idx s_frac u]. refine (conj _ (conj _ (conj _ _))).
  - reflexivity.
  - constructor; [cbn; lia|constructor].
  - right. unfold fed. cbn. lra.
  - constructor; [|constructor]. cbn. lra.
Qed.
