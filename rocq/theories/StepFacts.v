(** Facts about the solver step model: frames, budgets, decisions, rollback. *)
From Coq Require Import Lia List Arith Bool ZArith.
From Verif Require Import Num Loops Ldu Assembly Islands IslandSolve StepModel Spec_Step.
Import ListNotations.

Lemma loop_pres {S X : Type} (g : S -> X) f cnt : forall lo s,
  (forall i s, g (f i s) = g s) -> g (loop f lo cnt s) = g s.
Proof.
  induction cnt as [|c IH]; intros lo s Hf; cbn; [reflexivity|]. now rewrite IH, Hf.
Qed.

Arguments count : simpl never.

Section Facts.
  Context {T : Type} `{NT : Num T} {E : Type}.
  Variable N : net T E.
  Local Notation n := (nn N).
  Local Notation st := (state T E).

  Lemma count_snoc (f : call T E -> bool) cs c : count f (cs ++ [c]) = count f cs + (if f c then 1 else 0).
  Proof. unfold count. rewrite filter_app, app_length. cbn. destruct (f c); reflexivity. Qed.

  Ltac frame := repeat (match goal with
    | |- context [match ?x with _ => _ end] => destruct x eqn:?
    end); try reflexivity.

  (** ** Vectors *)

  Lemma copy_vec_in from to i : i < n -> copy_vec N from to i = from i.
  Proof.
    intros Hi. unfold copy_vec.
    pose proof (loop_inv (fun m (v : nat -> T) => forall a, a < m -> v a = from a)
      (fun i v => updv v i (from i)) n 0 to) as HL.
    apply HL; [intros; lia| |lia]. clear HL.
    intros j v Hj IH a Ha. destruct (Nat.eq_dec a j) as [->|Hne]; [apply updv_eq|].
    rewrite updv_neq by assumption. apply IH. lia.
  Qed.
  Lemma copy_vec_out from to i : n <= i -> copy_vec N from to i = to i.
  Proof.
    intros Hi. unfold copy_vec.
    pose proof (loop_inv (fun m (v : nat -> T) => v i = to i)
      (fun i v => updv v i (from i)) n 0 to eq_refl) as HL.
    apply HL. intros j v Hj IH. rewrite updv_neq by lia. exact IH.
  Qed.

  (** ** Frames *)

  (** What link and node callbacks cannot change. *)
  Definition core (s : st) :=
    (sA s, sSrc s, sP s, sMin s, sMaj s, sIvec s,
     (sLastMinor s, sLastDecomp s, cMajor s, cMinor s, cDecomp s, cMaxMinor s, cMaxDecomp s, cFail s, cSor s),
     sRecs s, count is_decomp (sCalls s)).

  Lemma tell_core c (s : st) : is_decomp c = false -> core (tell c s) = core s.
  Proof. intros Hc. unfold core, tell. cbn. rewrite count_snoc, Hc, Nat.add_0_r. reflexivity. Qed.
  Lemma on_world_core f (s : st) : core (on_world f s) = core s.
  Proof. reflexivity. Qed.

  Lemma step_link_core dt k l s : core (step_link N dt k l s) = core s.
  Proof.
    unfold step_link.
    set (s1 := if Nat.eqb k 1 then _ else _).
    assert (H1 : core s1 = core s).
    { unfold s1. destruct (Nat.eqb k 1); [now rewrite tell_core, on_world_core|].
      destruct (l_nonlin N l); [now rewrite tell_core, on_world_core|reflexivity]. }
    destruct (l_need N l (sWorld s1)) as [b w].
    assert (H2 : core (tell (CNeed l) (set_sWorld w s1)) = core s) by (now rewrite tell_core).
    destruct b; [|exact H2]. rewrite <- H2. reflexivity.
  Qed.
  Lemma step_links_core dt k s : core (step_links N dt k s) = core s.
  Proof. unfold step_links. apply (loop_pres core). intros. apply step_link_core. Qed.

  Lemma confirm_link_core c k l a : core (snd (confirm_link N c k l a)) = core (snd a).
  Proof.
    unfold confirm_link. destruct (l_nonlin N l); [|reflexivity].
    destruct (l_confirm N l c k (sWorld (snd a))) as [d w]. cbn [snd].
    transitivity (core (tell (CConfirm l c k d) (set_sWorld w (snd a)))); [reflexivity|now rewrite tell_core].
  Qed.
  Lemma confirm_core c k s : core (snd (confirm N c k s)) = core s.
  Proof.
    unfold confirm.
    change (core s) with (core (snd (CONFIRM, s))).
    apply (loop_pres (fun a => core (snd a))). intros. apply confirm_link_core.
  Qed.

  Lemma reset_links_core c k s : core (reset_links N c k s) = core s.
  Proof.
    unfold reset_links. apply (loop_pres core). intros l s0. unfold reset_link.
    destruct (l_nonlin N l); [|reflexivity]. destruct (l_reset N l c k (sWorld s0)) as [ok w].
    destruct ok.
    - now rewrite tell_core.
    - transitivity (core (tell (CReset l c k) (set_sWorld w s0))); [reflexivity|now rewrite tell_core].
  Qed.

  Lemma output_core u s : core (output N u s) = core s.
  Proof. unfold output. destruct (i_mode u); reflexivity. Qed.

  Lemma check_convergence_core s : core (snd (check_convergence N s)) = core s.
  Proof. unfold check_convergence. destruct (loop _ _ _ _). reflexivity. Qed.

  (** What the numerical part cannot change. *)
  Definition book (s : st) :=
    (sMaj s, sRecs s, sLastMinor s, cMajor s, cMinor s, cMaxMinor s, cMaxDecomp s, cFail s).
  Lemma core_book s s' : core s = core s' -> book s = book s'.
  Proof. unfold core, book. intros E0. injection E0. intros. congruence. Qed.
  Definition out_state (o : @outcome T E) : st := match o with Fine s | Limit s | Numeric s => s end.

  Definition budget (s : st) := (sLastDecomp s, cDecomp s, count is_decomp (sCalls s), sMin s).
  Lemma core_budget s s' : core s = core s' -> budget s = budget s'.
  Proof. unfold core, budget. intros E0. injection E0. intros. congruence. Qed.

  Lemma override_link_frame l s : book (override_link N l s) = book s /\ budget (override_link N l s) = budget s.
  Proof.
    unfold override_link. split.
    - apply (loop_pres book). intros p s0. frame.
    - apply (loop_pres budget). intros p s0. frame.
  Qed.
  Lemma override_book u s : book (override N u s) = book s.
  Proof.
    unfold override. destruct (i_mode u); try reflexivity.
    apply (loop_pres book). intros. apply override_link_frame.
  Qed.
  Lemma override_budget u s : is_normal (i_mode u) = true -> budget (override N u s) = budget s.
  Proof.
    unfold override. destruct (i_mode u); try discriminate. intros _.
    apply (loop_pres budget). intros. apply override_link_frame.
  Qed.
  Lemma override_counts u s : (sLastDecomp (override N u s), cDecomp (override N u s), count is_decomp (sCalls (override N u s)))
    = (sLastDecomp s, cDecomp s, count is_decomp (sCalls s)).
  Proof.
    pose proof (override_budget u s) as Hb. unfold override in *. destruct (i_mode u); try reflexivity.
    specialize (Hb eq_refl). unfold budget in Hb. injection Hb. intros. congruence.
  Qed.

  Lemma solve_step_frame s : book (out_state (solve_step N s)) = book s /\ budget (out_state (solve_step N s)) = budget s.
  Proof.
    unfold solve_step. set (c := CSolve _ _).
    assert (Ht : core (tell c s) = core s) by now apply tell_core.
    destruct (solve _ _ _ _) as [x|[k x]]; cbn [out_state]; split;
      first [rewrite <- (core_book _ _ Ht) | rewrite <- (core_budget _ _ Ht)]; reflexivity.
  Qed.

  Lemma perturb_node_frame i o :
    book (out_state (perturb_node N i o)) = book (out_state o) /\
    budget (out_state (perturb_node N i o)) = budget (out_state o).
  Proof.
    destruct o as [s|s|s]; cbn; auto.
    destruct (neps <~ w_req (sWorld s) i); [|auto].
    set (s1 := set_sSrc _ s).
    destruct (solve_step_frame s1) as (Hb & Hc).
    destruct (solve_step N s1) as [s2|s2|s2]; cbn in *; auto.
  Qed.
  Lemma perturb_frame s : book (out_state (perturb N s)) = book s /\ budget (out_state (perturb N s)) = budget s.
  Proof.
    unfold perturb. split.
    - apply (loop_pres (fun o => book (out_state o)) (perturb_node N) n 0 (Fine s)). intros; apply perturb_node_frame.
    - apply (loop_pres (fun o => budget (out_state o)) (perturb_node N) n 0 (Fine s)). intros; apply perturb_node_frame.
  Qed.
  Lemma netcap_frame dt s : core (netcap N dt s) = core s.
  Proof.
    unfold netcap. apply (loop_pres core). intros i s0. unfold netcap_node.
    destruct (neps <~ w_req (sWorld s0) i); reflexivity.
  Qed.

  Lemma rebuild_source_frame s : book (rebuild_source N s) = book s /\ budget (rebuild_source N s) = budget s.
  Proof. unfold rebuild_source. split; destruct (build_source _ _ _); reflexivity. Qed.
  Lemma rebuild_matrix_frame im s : book (rebuild_matrix N im s) = book s /\ budget (rebuild_matrix N im s) = budget s.
  Proof. unfold rebuild_matrix. destruct im; split; reflexivity. Qed.
  Lemma decompose_step_frame im s :
    book (out_state (decompose_step N im s)) = book s /\ budget (out_state (decompose_step N im s)) = budget s.
  Proof.
    unfold decompose_step. destruct im; split;
      (destruct (decompose _ _) as [?|[? ?]] || destruct (decompose_islands _ _ _) as [?|[[? ?] ?]]); reflexivity.
  Qed.

  Lemma build_and_solve_frame u s :
    let s' := out_state (build_and_solve N u s) in
    book s' = book s /\ sMin s' = sMin s /\
    exists d, d <= 1 /\ sLastDecomp s' = sLastDecomp s + d /\ cDecomp s' = cDecomp s + d /\
      count is_decomp (sCalls s') = count is_decomp (sCalls s) + d /\
      (d = 1 -> sLastDecomp s < decomp_limit N).
  Proof.
    cbv zeta. unfold build_and_solve.
    set (s1 := rebuild_source N s). set (need := sRebuild s1 || i_sor u || i_debug u).
    set (s2 := if need then _ else s1).
    assert (H1 : book s1 = book s /\ budget s1 = budget s) by apply rebuild_source_frame.
    assert (H2 : book s2 = book s /\ budget s2 = budget s).
    { unfold s2. destruct need; [|exact H1].
      destruct (rebuild_matrix_frame (i_island u) s1) as (A & B). destruct H1 as (C & D).
      split; [rewrite <- C, <- A|rewrite <- D, <- B]; reflexivity. }
    clearbody s2. clearbody need. clear H1 s1.
    set (p := if i_sor u && is_normal (i_mode u) then _ else _).
    assert (H3 : book (snd p) = book s /\ budget (snd p) = budget s).
    { unfold p. destruct (i_sor u && is_normal (i_mode u)); [|exact H2].
      destruct (sor N (sP s2) (sA s2) (sSrc s2)) as [it x]. destruct (it <? 0)%Z; cbn [snd];
        destruct H2 as (A & B); (split; [rewrite <- A|rewrite <- B]; reflexivity). }
    destruct p as [sl s3]. cbn [snd] in H3. clear s2 H2.
    assert (Hend : forall s4, book s4 = book s -> 
       book (out_state (if is_normal (i_mode u) then
                bind (perturb N s4) (fun s5 =>
                bind (solve_step N s5) (fun s6 => Fine (netcap N (i_dt u) (clean N s6))))
              else Fine s4)) = book s4 /\
       budget (out_state (if is_normal (i_mode u) then
                bind (perturb N s4) (fun s5 =>
                bind (solve_step N s5) (fun s6 => Fine (netcap N (i_dt u) (clean N s6))))
              else Fine s4)) = budget s4).
    { intros s4 Hb. destruct (is_normal (i_mode u)); [|split; reflexivity].
      destruct (perturb_frame s4) as (P1 & P2). destruct (perturb N s4) as [s5|s5|s5]; cbn [bind out_state] in *; auto.
      destruct (solve_step_frame s5) as (Q1 & Q2). destruct (solve_step N s5) as [s6|s6|s6]; cbn [bind out_state] in *;
        try (split; congruence).
      pose proof (netcap_frame (i_dt u) (clean N s6)) as HN.
      rewrite (core_book _ _ HN), (core_budget _ _ HN).
      change (book (clean N s6)) with (book s6). change (budget (clean N s6)) with (budget s6).
      split; congruence. }
    assert (Hfin : forall s', book s' = book s -> budget s' = budget s ->
      book s' = book s /\ sMin s' = sMin s /\
      exists d, d <= 1 /\ sLastDecomp s' = sLastDecomp s + d /\ cDecomp s' = cDecomp s + d /\
      count is_decomp (sCalls s') = count is_decomp (sCalls s) + d /\ (d = 1 -> sLastDecomp s < decomp_limit N)).
    { intros s' A B. unfold budget in B. injection B. intros B1 B2 B3 B4. split; [exact A|]. split; [exact B1|].
      exists 0. rewrite B2, B3, B4. repeat split; try lia. }
    destruct H3 as (A3 & B3).
    destruct (sl <? 0)%Z; [|apply Hfin; assumption].
    destruct (need && is_normal (i_mode u)).
    2:{ cbn [bind]. destruct (Hend s3 A3) as (X & Y). apply Hfin; [now rewrite X|now rewrite Y]. }
    destruct (Nat.ltb_spec (sLastDecomp s3) (decomp_limit N)) as [Hlt|Hge];
      [|apply Hfin; assumption].
    assert (L3 : sLastDecomp s3 = sLastDecomp s) by (unfold budget in B3; injection B3; auto).
    assert (C3 : cDecomp s3 = cDecomp s) by (unfold budget in B3; injection B3; auto).
    assert (K3 : count is_decomp (sCalls s3) = count is_decomp (sCalls s)) by (unfold budget in B3; injection B3; auto).
    assert (M3 : sMin s3 = sMin s) by (unfold budget in B3; injection B3; auto).
    set (s3' := tell CDecomp _).
    assert (Hd : forall s', book s' = book s3' -> budget s' = budget s3' ->
      book s' = book s /\ sMin s' = sMin s /\
      exists d, d <= 1 /\ sLastDecomp s' = sLastDecomp s + d /\ cDecomp s' = cDecomp s + d /\
      count is_decomp (sCalls s') = count is_decomp (sCalls s) + d /\ (d = 1 -> sLastDecomp s < decomp_limit N)).
    { intros s' A B. split; [rewrite A, <- A3; reflexivity|].
      unfold budget in B. injection B. intros B1 B2 B4 B5. split; [rewrite B1; exact M3|].
      exists 1. rewrite B2, B4, B5. unfold s3'. cbn. rewrite count_snoc. cbn. rewrite L3, C3, K3.
      repeat split; lia. }
    destruct (decompose_step_frame (i_island u) s3') as (X & Y).
    destruct (decompose_step N (i_island u) s3') as [s4|s4|s4]; cbn [bind out_state] in *; try (apply Hd; assumption).
    assert (A4 : book s4 = book s) by (rewrite X, <- A3; reflexivity).
    destruct (Hend s4 A4) as (P & Q). apply Hd; [now rewrite P|now rewrite Q].
  Qed.

  (** ** Budgets (C13) *)

  Definition flow_state (f : flow) : st := match f with Go s _ | Stop s _ => s | Throw s => s end.

  (** Decompositions used so far this major step, against values at its start. *)
  Definition within (d0 c0 : nat) (s : st) : Prop :=
    sLastDecomp s <= decomp_limit N /\ cDecomp s = d0 + sLastDecomp s /\
    count is_decomp (sCalls s) = c0 + sLastDecomp s.

  Lemma within_core d0 c0 s s' : core s' = core s -> within d0 c0 s -> within d0 c0 s'.
  Proof.
    intros E0. apply core_budget in E0. unfold budget in E0. injection E0. intros _ X Y Z.
    unfold within. rewrite X, Y, Z. auto.
  Qed.

  Lemma within_counts d0 c0 s s' :
    (sLastDecomp s', cDecomp s', count is_decomp (sCalls s')) = (sLastDecomp s, cDecomp s, count is_decomp (sCalls s)) ->
    within d0 c0 s -> within d0 c0 s'.
  Proof. intros E0. injection E0. intros X Y Z. unfold within. rewrite X, Y, Z. auto. Qed.

  (** What judging a solution cannot change. *)
  Definition keep (s : st) :=
    (sMaj s, cMajor s, cMinor s, cFail s, sLastDecomp s, cDecomp s, count is_decomp (sCalls s)).
  Lemma core_keep s s' : core s = core s' -> keep s = keep s'.
  Proof. unfold core, keep. intros E0. injection E0. intros. congruence. Qed.

  Lemma judge_frame u k s v : keep (flow_state (judge N u k s v)) = keep s.
  Proof.
    unfold judge.
    set (p := if is_delay (v_res v) then _ else _).
    assert (Hp : core (snd p) = core s).
    { unfold p. destruct (is_delay (v_res v)); [reflexivity|]. apply check_convergence_core. }
    destruct p as [ok s1]. cbn [snd] in Hp. set (c := if ok then _ else _).
    pose proof (confirm_core c k s1) as Hc. destruct (confirm N c k s1) as [d s2]. cbn [snd] in Hc.
    rewrite Hp in Hc. apply core_keep in Hc.
    destruct (is_reject d).
    - cbn [flow_state]. set (s3 := reset_links N c k (output N u (reset_to_minor N s2))).
      assert (E3 : core s3 = core (reset_to_minor N s2)) by (unfold s3; now rewrite reset_links_core, output_core).
      apply core_keep in E3. change (keep s3 = keep s). rewrite E3. exact Hc.
    - destruct (is_confirm d && Nat.ltb 0 c); [|exact Hc].
      destruct (negb (i_worst u) || _); exact Hc.
  Qed.
End Facts.
