(** Property theorems C13-C22 and C54 (the solver step). *)
From Coq Require Import Reals Lra Lia List Arith Bool ZArith Permutation Floats.
From Verif Require Import Num Loops Ldu Assembly Islands IslandSolve StepModel Spec_Step
  StepFacts StepBudget StepConv StepThms StepFactor StepCap.
Import ListNotations.

Section Generic.
  Context {T : Type} `{NT : Num T} {E : Type}.
  Variable N : net T E.
  Local Notation n := (nn N).

  (** C13: at most the configured minor steps and decompositions per step; the
      counters are truthful; every link is stepped at most once and
      minor-stepped at most limit-1 times.  [step] is a total function. *)
  Theorem C13_budgets u s :
    let s' := snd (step N u s) in
    exists tr, sCalls s' = sCalls s ++ tr /\
      count is_decomp tr <= decomp_limit N /\
      cDecomp s' = cDecomp s + count is_decomp tr /\
      cMinor s <= cMinor s' <= cMinor s + step_limit N u /\
      step_limit N u <= Nat.max 1 (minor_limit N) /\
      forall l, count (is_link_step l) tr <= 1 /\ count (is_link_minor l) tr <= step_limit N u - 1.
  Proof.
    cbv zeta. destruct (step_budget N u s) as (tr & A & B & C & D & F). exists tr. repeat split; try assumption; try apply D; try apply F.
    unfold step_limit. destruct (linear N || _); lia.
  Qed.

  (** C13 over a history of steps. *)
  Theorem C13_history us : forall s,
    exists tr, sCalls (run N us s) = sCalls s ++ tr /\
      count is_decomp tr <= length us * decomp_limit N /\
      cMinor (run N us s) <= cMinor s + length us * Nat.max 1 (minor_limit N).
  Proof.
    induction us as [|u us IH]; intros s.
    - exists []. rewrite app_nil_r. cbn. unfold count. cbn. repeat split; lia.
    - destruct (C13_budgets u s) as (tr & A & B & C & D & L & _). destruct (IH (snd (step N u s))) as (tr' & A' & B' & C').
      exists (tr ++ tr'). change (run N (u :: us) s) with (run N us (snd (step N u s))).
      rewrite A', A, app_assoc, count_app. split; [reflexivity|]. cbn [length]. split; nia.
  Qed.

  (** C14 *)
  Theorem C14_converged u s : i_mode u = NORMAL -> i_worst u = false -> linear N = false ->
    fst (step N u s) = Done true ->
    let s' := snd (step N u s) in
    well_chained n (sMin s) (sRecs s') /\
    exists rs r, sRecs s' = rs ++ [r] /\ r_dec r = CONFIRM /\
      (close n (tol N) (r_ref r) (r_P r) \/ (settled n (tol N) rs /\ same_on n (r_P r) (r_ref r))) /\
      same_on n (sP s') (r_P r) /\ 0 < r_conv r /\
      exists before, sCalls s' = before
        ++ map (fun l => CConfirm l (r_conv r) (r_k r) CONFIRM) (filter (l_nonlin N) (seq 0 (nl N)))
        ++ CUpdate :: map (fun m => COut (nl N - 1 - m)) (seq 0 (nl N)).
  Proof.
    intros Hm Hw Hl Hd. split; [|now apply acceptance].
    apply rollback; [|exact Hm]. unfold step in Hd. destruct (i_pause u); [discriminate|reflexivity].
  Qed.

  (** C15: [ans] are the answers on the call record; the decision depends on
      the multiset of answers only. *)
  Theorem C15_verdict c k s :
    exists ans,
      sCalls (snd (confirm N c k s)) = sCalls s ++ map (fun l => CConfirm l c k (ans l)) (filter (l_nonlin N) (seq 0 (nl N))) /\
      fst (confirm N c k s) = verdict c (map ans (filter (l_nonlin N) (seq 0 (nl N)))).
  Proof. destruct (confirm_spec N c k s) as (ans & A & B & _). exists ans. auto. Qed.

  (** C16: records of the minor steps, in order.  The potentials left behind by
      a rejected one are those of the latest kept one (or of the start), and
      these are what nodes and links were shown. *)
  Theorem C16_rollback u s : i_pause u = false -> i_mode u = NORMAL ->
    well_chained n (sMin s) (sRecs (snd (step N u s))) /\
    Forall (fun r => r_dec r = REJECT -> shows N (r_after r) (r_world r)) (sRecs (snd (step N u s))).
  Proof. intros Hp Hm. split; [now apply rollback|now apply rejected_shown]. Qed.

  (** C17 *)
  Theorem C17_failed_step u s :
    fst (step N u s) = Done false ->
    let s' := snd (step N u s) in
    let e := w_env (sWorld s') in
    i_mode u = NORMAL /\
    (forall i, i < n ->
       (forall l p, l < nl N -> p < l_ports N l -> l_over N l e p = true -> l_nodes N l e p <> i) ->
       sP s' i = sMaj s i) /\
    cFail s' = cFail s + 1 /\
    exists tr, sCalls s' = sCalls s ++ tr /\ Forall (fun c => is_flow c = false) tr.
  Proof. intros H. destruct (failure N u s H) as (A & B & _ & C & D). auto. Qed.

  (** [sMaj] is what the previous returning step ended with. *)
  Theorem C17_restores_previous u0 s0 u b : fst (step N u0 s0) = Done b ->
    let s := snd (step N u0 s0) in
    fst (step N u s) = Done false ->
    let s' := snd (step N u s) in
    let e := w_env (sWorld s') in
    forall i, i < n ->
       (forall l p, l < nl N -> p < l_ports N l -> l_over N l e p = true -> l_nodes N l e p <> i) ->
       sP s' i = sP s i.
  Proof.
    intros H0 s H s' e i Hi Ho. destruct (failure N u s H) as (_ & B & _). unfold s', e in *.
    rewrite (B i Hi Ho). exact (returned_saves N u0 s0 b H0 i Hi).
  Qed.

  (** C18, the part that holds: NORMAL steps only, links that flag changes,
      enough decompositions allowed, no exception before. *)
  Theorem C18_current_in_normal_mode dirty us s : honest N dirty -> 1 <= minor_limit N <= decomp_limit N ->
    Forall (fun u => i_mode u = NORMAL /\ i_sor u = false) us -> sRebuild s = true ->
    (forall a u b, us = a ++ u :: b -> b <> [] -> fst (step N u (run N a s)) <> Thrown) ->
    exists tr, sCalls (run N us s) = sCalls s ++ tr /\
      forall M e, In (CSolve M e) tr -> factor_of N e M.
  Proof.
    intros HH Hl Hu Hr Ht. destruct (run_good N dirty HH us Hl Hu s (or_introl Hr) Ht) as (tr & A & B).
    exists tr. split; [exact A|]. intros M e Hin. rewrite Forall_forall in B. exact (B _ Hin).
  Qed.

  (** C19, C22 for every returning step; callbacks after the solution must not
      themselves write potentials or move ports. *)
  Theorem C22_potentials_agree u s b : quiet_after N -> i_mode u <> DUMMY -> 1 <= minor_limit N ->
    fst (step N u s) = Done b ->
    let s' := snd (step N u s) in let w := sWorld s' in
    (forall i, i < n -> w_pot w i = sP s' i) /\
    forall l p, l < nl N -> p < l_ports N l -> l_nodes N l (w_env w) p < n ->
      w_lpot w l p = sP s' (l_nodes N l (w_env w) p).
  Proof.
    intros HQ Hm Hl Hd. destruct (potentials_agree N u s b HQ Hm Hl Hd) as (A & B & C).
    split; [exact A|]. intros l p Hll Hp Hn. rewrite C by assumption. apply Nat.ltb_lt in Hn. now rewrite Hn.
  Qed.

  (** C22 after each minor step that was not aborted. *)
  Theorem C22_each_minor_step u k s v s' v' : quiet_after N -> i_mode u <> DUMMY ->
    (v_res v = DELAY -> agrees N s) ->
    minor_body N u k s v = Go s' v' \/ (minor_body N u k s v = Stop s' v' /\ v_net v' = true) ->
    agrees N s'.
  Proof.
    intros HQ Hm Hd H. pose proof (body_agrees N u k s v HQ Hm Hd) as HB.
    destruct H as [H|[H Hv]]; rewrite H in HB; auto.
  Qed.

  Theorem C19_ground_zero u s b : quiet_after N -> i_mode u <> DUMMY -> 1 <= minor_limit N ->
    fst (step N u s) = Done b ->
    let w := sWorld (snd (step N u s)) in
    w_pot w n = n0 /\
    forall l p, l < nl N -> p < l_ports N l -> n <= l_nodes N l (w_env w) p -> w_lpot w l p = n0.
  Proof.
    intros HQ Hm Hl Hd. destruct (potentials_agree N u s b HQ Hm Hl Hd) as (A & B & C).
    split; [exact B|]. intros l p Hll Hp Hn. rewrite C by assumption. apply Nat.ltb_ge in Hn. now rewrite Hn.
  Qed.

  Theorem C19_restart nr nc lr s :
    (forall l w, l < nl N -> w_pot (lr l w) n = w_pot w n) ->
    w_pot (sWorld (restart N nr nc lr s)) n = n0 /\ sRebuild (restart N nr nc lr s) = true.
  Proof.
    intros H. split; [now apply restart_ground|]. unfold restart.
    assert (HP : forall f cnt lo s, sRebuild (loop (fun l (s : state T E) => on_world (f l) s) lo cnt s) = sRebuild s)
      by (intros f cnt lo s0; apply (loop_pres (@sRebuild T E)); reflexivity).
    rewrite HP. cbn [on_world set_sWorld sRebuild]. rewrite HP. reflexivity.
  Qed.

  (** C20 *)
  Theorem C20_pause u s : i_pause u = true -> step N u s = (Paused, s).
  Proof. intros H. unfold step. now rewrite H. Qed.

  (** C54: build-and-solve gives the same potentials (or the same failure)
      whatever capacitances were requested, ... *)
  Theorem C54_requests_do_not_disturb u s t : 1 <= n ->
    (sA s = sA t /\ sSrc s = sSrc t /\ sP s = sP t /\ sMin s = sMin t /\ sRebuild s = sRebuild t /\
     sIvec s = sIvec t /\ sLastDecomp s = sLastDecomp t /\ w_env (sWorld s) = w_env (sWorld t)) ->
    match build_and_solve N u s, build_and_solve N u t with
    | Fine s', Fine t' => same_on n (sP s') (sP t')
    | Limit _, Limit _ => True
    | Numeric _, Numeric _ => True
    | _, _ => False
    end.
  Proof. exact (requests_do_not_disturb N u s t). Qed.

  (** ... and answers and clears every request. *)
  Theorem C54_requests_answered u s s' : 1 <= n -> i_mode u = NORMAL -> i_sor u = false ->
    build_and_solve N u s = Fine s' -> (neps <~ n0) = false ->
    forall i, i < n -> (neps <~ w_req (sWorld s') i) = false /\
      ((neps <~ w_req (sWorld s) i) = false -> w_cap (sWorld s') i = n0) /\
      ((neps <~ w_req (sWorld s) i) = true -> forall j, j < n ->
         exists x0 x B, solve (sA s') B x0 n = inl x /\
           (forall k, B k = if Nat.eqb k i then sSrc s' i +~ w_req (sWorld s) i else sSrc s' k) /\
           w_ndp (sWorld s') i j = x j -~ sP s' j /\
           w_cap (sWorld s') i = (let d := nabs (x i -~ sP s' i) in
             if neps <~ d then i_dt u *~ w_req (sWorld s) i /~ d else n0)).
  Proof. exact (requests_answered N u s s'). Qed.
End Generic.
Print Assumptions C13_budgets.
Print Assumptions C13_history.
Print Assumptions C14_converged.
Print Assumptions C15_verdict.
Print Assumptions C16_rollback.
Print Assumptions C17_failed_step.
Print Assumptions C17_restores_previous.
Print Assumptions C18_current_in_normal_mode.
Print Assumptions C22_potentials_agree.
Print Assumptions C22_each_minor_step.
Print Assumptions C19_ground_zero.
Print Assumptions C19_restart.
Print Assumptions C20_pause.
Print Assumptions C54_requests_do_not_disturb.
Print Assumptions C54_requests_answered.

Theorem C15_order_irrelevant c ds ds' : Permutation ds ds' -> verdict c ds = verdict c ds'.
Proof. exact (verdict_perm c ds ds'). Qed.
Print Assumptions C15_order_irrelevant.

(** C14 read over the reals: in the undelayed case no node moved by more than
    the tolerance. *)
Theorem C14_converged_real {E} (N : net R E) u s : i_mode u = NORMAL -> i_worst u = false -> linear N = false ->
  fst (step N u s) = Done true ->
  let s' := snd (step N u s) in
  exists rs r r0, sRecs s' = rs ++ [r] /\ In r0 (rs ++ [r]) /\
    (forall i, (i < nn N)%nat -> (Rabs (r_ref r0 i - r_P r0 i) <= tol N)%R) /\
    (forall i, (i < nn N)%nat -> sP s' i = r_P r0 i) /\
    (forall l, (l < nl N)%nat -> l_nonlin N l = true -> In (CConfirm l (r_conv r) (r_k r) CONFIRM) (sCalls s')).
Proof.
  intros Hm Hw Hl Hd. cbv zeta.
  destruct (C14_converged N u s Hm Hw Hl Hd) as (HC & rs & r & R1 & R2 & R3 & R4 & R5 & bf & R6).
  assert (Hclose : forall x y, close (nn N) (tol N) x y -> forall i, (i < nn N)%nat -> (Rabs (x i - y i) <= tol N)%R).
  { intros x y Hc i Hi. specialize (Hc i Hi). rnum. destruct (Rltb_spec (tol N) (Rabs (x i - y i))); [discriminate|lra]. }
  assert (Hconf : forall l, (l < nl N)%nat -> l_nonlin N l = true -> In (CConfirm l (r_conv r) (r_k r) CONFIRM) (sCalls (snd (step N u s)))).
  { intros l Hln Hnl. rewrite R6. apply in_or_app. right. apply in_or_app. left. apply in_map_iff. exists l.
    split; [reflexivity|]. apply filter_In. split; [apply in_seq; lia|exact Hnl]. }
  destruct R3 as [R3|((a & q & b & A1 & A2 & A3 & A4) & R3)].
  - exists rs, r, r. split; [exact R1|]. split; [apply in_or_app; right; now left|]. split; [now apply Hclose|]. split; [exact R4|exact Hconf].
  - exists rs, r, q. split; [exact R1|]. split; [apply in_or_app; left; rewrite A1; apply in_or_app; right; now left|].
    split; [now apply Hclose|]. split; [|exact Hconf].
    intros i Hi. rewrite (R4 i Hi), (R3 i Hi).
    destruct (HC rs r [] R1) as (C1 & _). rewrite (C1 i Hi).
    (* the reference is the last kept potentials, which have not moved since q *)
    rewrite A1. clear - A3 A4 Hi.
    assert (HL : forall (l : list (@mrec R E)) m0, Forall (fun q0 => r_dec q0 = DELAY /\ same_on (nn N) (r_P q0) (r_P q)) l ->
      m0 i = r_P q i -> last_kept m0 l i = r_P q i).
    { induction l as [|z l IH]; intros m0 Hf H0; cbn; [exact H0|]. inversion Hf as [|? ? (Z1 & Z2) Hf']; subst.
      apply IH; [exact Hf'|]. rewrite Z1. cbn. now apply Z2. }
    generalize (sMin s). induction a as [|z a IH]; intros m0; cbn.
    + rewrite A3. cbn. now apply HL.
    + apply IH.
Qed.
Print Assumptions C14_converged_real.

(** ** Example network over binary64: two nodes, one non-linear two-port link
    (conductances 1 between the nodes, 1 from each to ground, source 1 into
    node 0).  [e] scripts its answers by minor step. *)
Definition ex_net (answers : nat -> decision) (src : float) (over : bool) (lim dlim : nat) : net float unit :=
  mknet 2 1 (fun _ => true) (fun _ => 2) (fun _ _ p => p) (fun _ _ => 4) (fun _ _ m => Z.of_nat m)
    (fun _ _ m => if Nat.eqb m 0 || Nat.eqb m 3 then 2%float else (-1)%float)
    (fun _ _ p => if Nat.eqb p 0 then src else 0%float)
    (fun _ _ p => over && Nat.eqb p 1)
    (fun _ _ w => w) (fun _ _ _ w => w) (fun _ w => (false, w))
    (fun _ c k w => (answers k, w)) (fun _ _ _ w => (true, w)) (fun _ w => w) (fun _ w => w) (fun _ w => w)
    (fun _ w => w) lim dlim 1e-9%float (fun x _ _ => ((-1)%Z, x)).
Definition ex_world : world float unit := mkworld tt (fun _ => 0%float) (fun _ _ => 0%float) (fun _ => 0%float) (fun _ => 0%float) (fun _ _ => 0%float).
Definition ex_start : state float unit :=
  mkstate (fun _ _ => 0%float) (fun _ => 0%float) (fun _ => 0%float) (fun _ => 0%float) (fun _ => 0%float) true
    (fun _ => []) (fun _ => 0%float) (fun _ => CONFIRM) 0 0 0 0 0 0 0 0 0 0 ex_world [] [].
Definition ex_in (m : smode) : input float := mkinput m OFF false false false false (fun _ => 0%float) 0.1%float.

(** Rejects the second minor step, delays the third. *)
Definition mixed (k : nat) : decision := if Nat.eqb k 2 then REJECT else if Nat.eqb k 3 then DELAY else CONFIRM.
Example ex_mixed_run :
  let r := step (ex_net mixed 1 false 10 10) (ex_in NORMAL) ex_start in
  fst r = Done true /\ map (fun q => (r_k q, r_conv q, r_dec q)) (sRecs (snd r)) =
    [(1, 0, CONFIRM); (2, 1, REJECT); (3, 1, DELAY); (4, 2, CONFIRM)]%nat /\
  sRebuild (snd r) = false /\ cDecomp (snd r) = 1.
Proof. vm_compute. repeat split. Qed.
(** Rejects for ever: fails at the limit. *)
Example ex_failing_run :
  let r := step (ex_net (fun _ => REJECT) 1 false 10 10) (ex_in NORMAL) ex_start in
  fst r = Done false /\ cFail (snd r) = 1 /\ cMinor (snd r) = 10 /\ sP (snd r) 0 = 0%float.
Proof. vm_compute. repeat split. Qed.
Example ex_quiet : quiet_after (ex_net mixed 1 false 10 10).
Proof. repeat split. Qed.
Example ex_honest : honest (ex_net mixed 1 false 10 10) (fun _ _ => false).
Proof. constructor; repeat intro; try (right; split; repeat split); repeat split. Qed.
Example ex_nonlinear : linear (ex_net mixed 1 false 10 10) = false.
Proof. reflexivity. Qed.

(** C18 refuted: one step in DUMMY mode builds the matrix without factorising
    it and clears the rebuild flag, so the next NORMAL step solves with the bare
    matrix.  The link is honest, nothing throws and no limit is reached. *)
Theorem C18_factorisation_current_refuted :
  exists (N : net float unit) us s dirty,
    honest N dirty /\ sRebuild s = true /\ sCalls s = [] /\
    (forall a u b, us = a ++ u :: b -> fst (step N u (run N a s)) <> Thrown) /\
    exists M e, In (CSolve M e) (sCalls (run N us s)) /\ ~ factor_of N e M.
Proof.
  set (N := ex_net (fun _ => CONFIRM) 1 false 10 10).
  exists N, [ex_in DUMMY; ex_in NORMAL], ex_start, (fun _ _ => false).
  split; [constructor; repeat intro; try (right; split; repeat split); repeat split|].
  split; [reflexivity|]. split; [reflexivity|]. split.
  { intros a u b Hab. destruct a as [|x [|y [|z a]]].
    - injection Hab. intros _ <-. vm_compute. discriminate.
    - injection Hab. intros _ <- <-. vm_compute. discriminate.
    - injection Hab. intros Hx _ _. destruct b; discriminate.
    - injection Hab. intros Hx _ _. discriminate. }
  assert (HX : existsb (fun c : call float unit => match c with CSolve M _ => PrimFloat.eqb (M 1%nat 0%nat) (-1) | _ => false end)
     (sCalls (run N [ex_in DUMMY; ex_in NORMAL] ex_start)) = true) by (vm_compute; reflexivity).
  apply existsb_exists in HX. destruct HX as (c & Hin & Hc).
  destruct c as [| | | | | |M e| | | |]; try discriminate Hc. exists M, e. split; [exact Hin|]. destruct e.
  clear Hin. intros (b & HF). cbv zeta in HF.
  assert (HM : M 1%nat 0%nat = (-0.5)%float).
  { destruct HF as [HF|(iv & HF)].
    - apply (f_equal (fun r => match r with inl Q => Q 1%nat 0%nat | inr _ => 7%float end)) in HF.
      cbv beta iota in HF. rewrite <- HF. vm_compute. reflexivity.
    - apply (f_equal (fun r => match r with inl Q => Q 1%nat 0%nat | inr _ => 7%float end)) in HF.
      cbv beta iota in HF. rewrite <- HF. vm_compute. reflexivity. }
  rewrite HM in Hc. vm_compute in Hc. discriminate.
Qed.
Print Assumptions C18_factorisation_current_refuted.

(** The same after a step that ran out of decompositions. *)
Definition once_dirty : net float nat :=
  mknet 2 1 (fun _ => true) (fun _ => 2) (fun _ _ p => p) (fun _ _ => 4) (fun _ _ m => Z.of_nat m)
    (fun _ e m => if Nat.eqb m 0 || Nat.eqb m 3 then (if Nat.eqb e 0 then 2%float else 4%float) else (-1)%float)
    (fun _ _ p => if Nat.eqb p 0 then 1%float else 0%float)
    (fun _ _ p => false)
    (fun _ _ w => w)
    (fun _ _ k w => if Nat.eqb k 2 then mkworld 1 (w_pot w) (w_lpot w) (w_req w) (w_cap w) (w_ndp w) else w)
    (fun _ w => if Nat.eqb (w_env w) 1 then (true, mkworld 2 (w_pot w) (w_lpot w) (w_req w) (w_cap w) (w_ndp w)) else (false, w))
    (fun _ c k w => (CONFIRM, w)) (fun _ _ _ w => (true, w)) (fun _ w => w) (fun _ w => w) (fun _ w => w)
    (fun _ w => w) 10 1 1e-9%float (fun x _ _ => ((-1)%Z, x)).
Definition ex_start0 : state float nat :=
  mkstate (fun _ _ => 0%float) (fun _ => 0%float) (fun _ => 0%float) (fun _ => 0%float) (fun _ => 0%float) true
    (fun _ => []) (fun _ => 0%float) (fun _ => CONFIRM) 0 0 0 0 0 0 0 0 0 0
    (mkworld 0 (fun _ => 0%float) (fun _ _ => 0%float) (fun _ => 0%float) (fun _ => 0%float) (fun _ _ => 0%float)) [] [].
Example C18_stale_after_limit :
  fst (step once_dirty (ex_in NORMAL) ex_start0) = Done false /\
  existsb (fun c : call float nat => match c with CSolve M e => Nat.eqb e 2 && PrimFloat.eqb (M 1%nat 0%nat) (-1) | _ => false end)
     (sCalls (run once_dirty [ex_in NORMAL; ex_in NORMAL] ex_start0)) = true.
Proof. vm_compute. split; reflexivity. Qed.

(** C21 refuted: a NaN source gives NaN potentials, and the step reports
    convergence at the first minor step. *)
Theorem C21_nan_not_accepted_refuted :
  exists (N : net float unit) u s,
    i_mode u = NORMAL /\ linear N = false /\
    fst (step N u s) = Done true /\
    PrimFloat.eqb (sP (snd (step N u s)) 0%nat) (sP (snd (step N u s)) 0%nat) = false.
Proof.
  exists (ex_net (fun _ => CONFIRM) nan false 10 10), (ex_in NORMAL), ex_start. vm_compute. repeat split.
Qed.
Print Assumptions C21_nan_not_accepted_refuted.

(** A capacitance request on node 0: answered, cleared, same potentials. *)
Definition ex_req : state float unit :=
  set_sWorld (mkworld tt (fun _ => 0%float) (fun _ _ => 0%float) (fun i => if Nat.eqb i 0 then 1%float else 0%float) (fun _ => 0%float) (fun _ _ => 0%float)) ex_start.
Example ex_capacitance :
  let N := ex_net (fun _ => CONFIRM) 1 false 10 10 in
  match build_and_solve N (ex_in NORMAL) ex_req, build_and_solve N (ex_in NORMAL) ex_start with
  | Fine r, Fine q => w_req (sWorld r) 0 = 0%float /\ PrimFloat.ltb 0.149 (w_cap (sWorld r) 0) = true /\
      PrimFloat.ltb (w_cap (sWorld r) 0) 0.151 = true /\ sP r 0 = sP q 0
  | _, _ => False
  end.
Proof. vm_compute. repeat split. Qed.

(** C55 refuted: a request made before the step, whose answer the first minor
    step computed, reads zero after a step that took two minor steps. *)
Theorem C55_requested_capacitance_available_refuted :
  exists (N : net float unit) u s s1,
    PrimFloat.ltb neps (w_req (sWorld s) 0) = true /\ i_mode u = NORMAL /\ i_sor u = false /\
    build_and_solve N u s = Fine s1 /\ PrimFloat.ltb 0.1 (w_cap (sWorld s1) 0) = true /\
    fst (step N u s) = Done true /\ w_cap (sWorld (snd (step N u s))) 0 = 0%float.
Proof.
  set (N := ex_net (fun _ => CONFIRM) 1 false 10 10).
  assert (H : match build_and_solve N (ex_in NORMAL) ex_req with Fine s1 => PrimFloat.ltb 0.1 (w_cap (sWorld s1) 0) | _ => false end = true)
    by (vm_compute; reflexivity).
  destruct (build_and_solve N (ex_in NORMAL) ex_req) as [s1|s1|s1] eqn:HB; [|discriminate H..].
  exists N, (ex_in NORMAL), ex_req, s1. split; [vm_compute; reflexivity|]. split; [reflexivity|]. split; [reflexivity|].
  split; [exact HB|]. split; [exact H|]. clear HB H. split; vm_compute; reflexivity.
Qed.
Print Assumptions C55_requested_capacitance_available_refuted.
Example float_eps_positive : (neps <~ (n0 : float)) = false.
Proof. vm_compute. reflexivity. Qed.
