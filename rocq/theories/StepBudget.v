(** Calls made by the solver step, and the iteration budgets (C13). *)
From Coq Require Import Lia List Arith Bool ZArith.
From Verif Require Import Num Loops Ldu Assembly Islands IslandSolve StepModel Spec_Step StepFacts.
Import ListNotations.

Section Budget.
  Context {T : Type} `{NT : Num T} {E : Type}.
  Variable N : net T E.
  Local Notation n := (nn N).
  Local Notation st := (state T E).

  Lemma count_app (f : call T E -> bool) a b : count f (a ++ b) = count f a + count f b.
  Proof. unfold count. now rewrite filter_app, app_length. Qed.
  Lemma count_none (f : call T E -> bool) a : Forall (fun c => f c = false) a -> count f a = 0.
  Proof.
    induction 1 as [|c a Hc Ha IH]; [reflexivity|]. unfold count in *. cbn. now rewrite Hc.
  Qed.

  (** [s'] extends the calls of [s], the new ones satisfying [Q]. *)
  Definition emits (Q : call T E -> Prop) (s s' : st) : Prop :=
    exists tr, sCalls s' = sCalls s ++ tr /\ Forall Q tr.
  Lemma emits_same Q (s s' : st) : sCalls s' = sCalls s -> emits Q s s'.
  Proof. intros H. exists []. rewrite app_nil_r. auto. Qed.
  Lemma emits_tell (Q : call T E -> Prop) c (s : st) : Q c -> emits Q s (tell c s).
  Proof. intros H. exists [c]. split; [reflexivity|]. auto. Qed.
  Lemma emits_trans Q s s' s'' : emits Q s s' -> emits Q s' s'' -> emits Q s s''.
  Proof.
    intros (a & A1 & A2) (b & B1 & B2). exists (a ++ b). split.
    - now rewrite B1, A1, app_assoc.
    - apply Forall_app. auto.
  Qed.
  Lemma emits_weaken (Q Q' : call T E -> Prop) s s' : (forall c, Q c -> Q' c) -> emits Q s s' -> emits Q' s s'.
  Proof. intros H (a & A1 & A2). exists a. split; [exact A1|]. eapply Forall_impl; eauto. Qed.
  Lemma emits_count f (Q : call T E -> Prop) (s s' : st) : (forall c, Q c -> f c = false) -> emits Q s s' ->
    count f (sCalls s') = count f (sCalls s).
  Proof.
    intros H (a & A1 & A2). rewrite A1, count_app, (count_none f a); [lia|].
    eapply Forall_impl; [|exact A2]. exact H.
  Qed.

  Definition steps_of (k l : nat) : list (call T E) :=
    (if Nat.eqb k 1 then [CStep l] else if l_nonlin N l then [CMinor l k] else []) ++ [CNeed l].

  Lemma step_link_calls dt k l s : sCalls (step_link N dt k l s) = sCalls s ++ steps_of k l.
  Proof.
    unfold step_link, steps_of.
    destruct (Nat.eqb k 1); [|destruct (l_nonlin N l)];
      (destruct (l_need N l _) as [[|] w]; cbn; rewrite <- ?app_assoc; reflexivity).
  Qed.
  Lemma loop_calls (f : nat -> st -> st) g cnt : forall lo s,
    (forall i s, sCalls (f i s) = sCalls s ++ g i) ->
    sCalls (loop f lo cnt s) = sCalls s ++ flat_map g (seq lo cnt).
  Proof.
    induction cnt as [|c IH]; intros lo s Hf; cbn; [now rewrite app_nil_r|].
    rewrite IH by assumption. rewrite Hf. now rewrite app_assoc.
  Qed.
  (** Every link is stepped exactly once, in order, and asked for an update. *)
  Lemma step_links_calls dt k s :
    sCalls (step_links N dt k s) = sCalls s ++ flat_map (steps_of k) (seq 0 (nl N)).
  Proof. unfold step_links. apply loop_calls. intros. apply step_link_calls. Qed.

  Definition resets_of (c k l : nat) : list (call T E) := if l_nonlin N l then [CReset l c k] else [].
  Lemma reset_links_calls c k s :
    sCalls (reset_links N c k s) = sCalls s ++ flat_map (resets_of c k) (seq 0 (nl N)).
  Proof.
    unfold reset_links. apply loop_calls. intros l s0. unfold reset_link, resets_of.
    destruct (l_nonlin N l); [|now rewrite app_nil_r].
    destruct (l_reset N l c k (sWorld s0)) as [[|] w]; reflexivity.
  Qed.

  Definition is_confirm_call (c : call T E) : Prop := match c with CConfirm _ _ _ _ => True | _ => False end.
  Lemma confirm_emits c k s : emits is_confirm_call s (snd (confirm N c k s)).
  Proof.
    unfold confirm.
    pose proof (loop_inv (fun _ a => emits is_confirm_call s (snd a)) (confirm_link N c k) (nl N) 0 (CONFIRM, s)) as HL.
    apply HL; [apply emits_same; reflexivity|]. intros l a Hl Ha. unfold confirm_link.
    destruct (l_nonlin N l); [|exact Ha]. destruct (l_confirm N l c k (sWorld (snd a))) as [d w].
    eapply emits_trans; [exact Ha|]. exists [CConfirm l c k d]. split; [reflexivity|]. repeat constructor.
  Qed.

  Definition is_numeric_call (c : call T E) : Prop := match c with CDecomp | CSolve _ _ => True | _ => False end.
  Lemma solve_step_emits s : emits is_numeric_call s (out_state (solve_step N s)).
  Proof.
    unfold solve_step. destruct (solve _ _ _ _) as [x|[k x]]; cbn [out_state];
      (eexists; split; [reflexivity|]; repeat constructor).
  Qed.
  Lemma perturb_emits s : emits is_numeric_call s (out_state (perturb N s)).
  Proof.
    unfold perturb.
    pose proof (loop_inv (fun _ o => emits is_numeric_call s (out_state o)) (perturb_node N) n 0 (Fine s)) as HL.
    apply HL; [apply emits_same; reflexivity|]. clear HL. intros i o Hi Ho.
    destruct o as [s0|s0|s0]; cbn; auto. cbn in Ho.
    destruct (neps <~ w_req (sWorld s0) i); [|exact Ho].
    set (s1 := set_sSrc _ s0). pose proof (solve_step_emits s1) as Hs.
    assert (emits is_numeric_call s (out_state (solve_step N s1))) by (eapply emits_trans; eauto).
    destruct (solve_step N s1) as [s2|s2|s2]; cbn [bind out_state] in *; auto.
  Qed.
  Lemma netcap_calls dt s : sCalls (netcap N dt s) = sCalls s.
  Proof.
    unfold netcap. apply (loop_pres (@sCalls T E)). intros i s0. unfold netcap_node.
    destruct (neps <~ w_req (sWorld s0) i); reflexivity.
  Qed.
  Lemma rebuild_source_calls s : sCalls (rebuild_source N s) = sCalls s.
  Proof. unfold rebuild_source. destruct (build_source _ _ _); reflexivity. Qed.
  Lemma rebuild_matrix_calls im s : sCalls (rebuild_matrix N im s) = sCalls s.
  Proof. unfold rebuild_matrix. destruct im; reflexivity. Qed.
  Lemma decompose_step_calls im s : sCalls (out_state (decompose_step N im s)) = sCalls s.
  Proof.
    unfold decompose_step. destruct im;
      (destruct (decompose _ _) as [?|[? ?]] || destruct (decompose_islands _ _ _) as [?|[[? ?] ?]]); reflexivity.
  Qed.

  Lemma build_and_solve_emits u s : emits is_numeric_call s (out_state (build_and_solve N u s)).
  Proof.
    unfold build_and_solve.
    set (s1 := rebuild_source N s). set (need := sRebuild s1 || i_sor u || i_debug u).
    set (s2 := if need then _ else s1).
    assert (H2 : sCalls s2 = sCalls s).
    { unfold s2. destruct need; [|apply rebuild_source_calls].
      cbn [set_sRebuild sCalls]. rewrite rebuild_matrix_calls. apply rebuild_source_calls. }
    clearbody s2. clearbody need. clear s1.
    set (p := if i_sor u && is_normal (i_mode u) then _ else _).
    assert (H3 : sCalls (snd p) = sCalls s).
    { unfold p. destruct (i_sor u && is_normal (i_mode u)); [|exact H2].
      destruct (sor N (sP s2) (sA s2) (sSrc s2)) as [it x]. destruct (it <? 0)%Z; exact H2. }
    destruct p as [sl s3]. cbn [snd] in H3.
    destruct (sl <? 0)%Z; [|apply emits_same; exact H3].
    assert (Hend : forall s4, emits is_numeric_call s s4 ->
       emits is_numeric_call s (out_state (if is_normal (i_mode u) then
                bind (perturb N s4) (fun s5 =>
                bind (solve_step N s5) (fun s6 => Fine (netcap N (i_dt u) (clean N s6))))
              else Fine s4))).
    { intros s4 H4. destruct (is_normal (i_mode u)); [|exact H4].
      pose proof (emits_trans _ _ _ _ H4 (perturb_emits s4)) as H5.
      destruct (perturb N s4) as [s5|s5|s5]; cbn [bind out_state] in *; auto.
      pose proof (emits_trans _ _ _ _ H5 (solve_step_emits s5)) as H6.
      destruct (solve_step N s5) as [s6|s6|s6]; cbn [bind out_state] in *; auto.
      eapply emits_trans; [exact H6|]. apply emits_same. rewrite netcap_calls. reflexivity. }
    destruct (need && is_normal (i_mode u)); [|cbn [bind]; apply Hend; apply emits_same; exact H3].
    destruct (Nat.ltb (sLastDecomp s3) (decomp_limit N)); [|apply emits_same; exact H3].
    set (s3' := tell CDecomp _).
    assert (H3' : emits is_numeric_call s s3').
    { exists [CDecomp]. split; [unfold s3'; cbn; now rewrite H3|]. repeat constructor. }
    pose proof (decompose_step_calls (i_island u) s3') as H4.
    assert (H5 : emits is_numeric_call s (out_state (decompose_step N (i_island u) s3'))).
    { eapply emits_trans; [exact H3'|]. now apply emits_same. }
    destruct (decompose_step N (i_island u) s3') as [s4|s4|s4]; cbn [bind out_state] in *; auto.
  Qed.
  Lemma override_calls u s : sCalls (override N u s) = sCalls s.
  Proof.
    unfold override. destruct (i_mode u); try reflexivity.
    apply (loop_pres (@sCalls T E)). intros l s0. unfold override_link.
    apply (loop_pres (@sCalls T E)). intros p s1. destruct (_ && _); reflexivity.
  Qed.
  Lemma output_calls u s : sCalls (output N u s) = sCalls s.
  Proof. unfold output. destruct (i_mode u); reflexivity. Qed.
  Lemma check_calls s : sCalls (snd (check_convergence N s)) = sCalls s.
  Proof. unfold check_convergence. destruct (loop _ _ _ _). reflexivity. Qed.

  (** Calls that judging a solution makes. *)
  Definition is_judge_call (c : call T E) : Prop :=
    match c with CConfirm _ _ _ _ | CReset _ _ _ => True | _ => False end.
  Lemma judge_emits u k s v : emits is_judge_call s (flow_state (judge N u k s v)).
  Proof.
    unfold judge. set (p := if is_delay (v_res v) then _ else _).
    assert (Hp : sCalls (snd p) = sCalls s).
    { unfold p. destruct (is_delay (v_res v)); [reflexivity|]. apply check_calls. }
    destruct p as [ok s1]. cbn [snd] in Hp. set (c := if ok then _ else _).
    pose proof (confirm_emits c k s1) as Hc. destruct (confirm N c k s1) as [d s2]. cbn [snd] in Hc.
    assert (H2 : emits is_judge_call s s2).
    { eapply emits_trans; [apply emits_same; exact Hp|]. revert Hc. apply emits_weaken. intros []; cbn; tauto. }
    destruct (is_reject d).
    - cbn [flow_state]. set (s3 := reset_links N c k (output N u (reset_to_minor N s2))).
      eapply emits_trans; [exact H2|]. eexists. split.
      + cbn [set_sRecs sCalls]. unfold s3. rewrite reset_links_calls, output_calls. reflexivity.
      + apply Forall_flat_map. apply Forall_forall. intros l _. unfold resets_of. destruct (l_nonlin N l); repeat constructor.
    - destruct (is_confirm d && Nat.ltb 0 c); [|exact H2].
      destruct (negb (i_worst u) || _); exact H2.
  Qed.

  (** Calls on link [l] in minor step [k]. *)
  Definition calls_bound (k l : nat) (tr : list (call T E)) : Prop :=
    count (is_link_step l) tr <= (if Nat.eqb k 1 then 1 else 0) /\
    count (is_link_minor l) tr <= (if Nat.eqb k 1 then 0 else 1).

  Lemma steps_of_count k l : forall cnt lo,
    count (is_link_step l) (flat_map (steps_of k) (seq lo cnt)) <= (if Nat.eqb k 1 then (if (lo <=? l) && (l <? lo + cnt) then 1 else 0) else 0) /\
    count (is_link_minor l) (flat_map (steps_of k) (seq lo cnt)) <= (if Nat.eqb k 1 then 0 else (if (lo <=? l) && (l <? lo + cnt) then 1 else 0)).
  Proof.
    induction cnt as [|c IH]; intros lo; cbn [seq flat_map]; [unfold count; cbn; split; destruct (Nat.eqb k 1); lia|].
    rewrite !count_app. destruct (IH (S lo)) as (A & B).
    assert (HS : count (is_link_step l) (steps_of k lo)
       = if Nat.eqb k 1 then (if Nat.eqb lo l then 1 else 0) else 0).
    { unfold count, steps_of. destruct (Nat.eqb k 1); cbn; [destruct (Nat.eqb lo l); reflexivity|].
      destruct (l_nonlin N lo); reflexivity. }
    assert (HM : count (is_link_minor l) (steps_of k lo)
       <= if Nat.eqb k 1 then 0 else (if Nat.eqb lo l then 1 else 0)).
    { unfold count, steps_of. destruct (Nat.eqb k 1); cbn; [lia|].
      destruct (l_nonlin N lo); cbn; destruct (Nat.eqb lo l); cbn; lia. }
    rewrite HS. destruct (Nat.eqb k 1).
    - split; [|lia]. revert A. destruct (Nat.leb_spec (S lo) l), (Nat.leb_spec lo l), (Nat.eqb_spec lo l),
        (Nat.ltb_spec l (S lo + c)), (Nat.ltb_spec l (lo + S c)); cbn [andb]; lia.
    - split; [lia|]. revert B HM. destruct (Nat.leb_spec (S lo) l), (Nat.leb_spec lo l), (Nat.eqb_spec lo l),
        (Nat.ltb_spec l (S lo + c)), (Nat.ltb_spec l (lo + S c)); cbn [andb]; lia.
  Qed.

  Definition not_link_call (c : call T E) : Prop := match c with CStep _ | CMinor _ _ | CUpdate | COut _ => False | _ => True end.

  Lemma body_calls u k s v :
    exists tr, sCalls (flow_state (minor_body N u k s v)) = sCalls s ++ tr /\
      (forall l, calls_bound k l tr) /\ Forall (fun c => is_flow c = false) tr.
  Proof.
    unfold minor_body.
    set (s1 := set_cMinor _ _). set (s2 := if Nat.ltb (cMaxMinor s1) k then _ else s1).
    assert (H2 : sCalls s2 = sCalls s) by (unfold s2; destruct (Nat.ltb _ _); reflexivity).
    clearbody s2. clear s1.
    set (solved := if is_delay (v_res v) then _ else _).
    assert (HS : exists tr0 tr1, sCalls (out_state solved) = sCalls s ++ tr0 ++ tr1 /\
        (tr0 = [] \/ tr0 = flat_map (steps_of k) (seq 0 (nl N))) /\ Forall not_link_call tr1).
    { unfold solved. destruct (is_delay (v_res v)).
      - exists [], []. cbn. rewrite app_nil_r. auto.
      - set (s3 := step_links N (i_dt u) k s2).
        assert (H3 : sCalls s3 = sCalls s ++ flat_map (steps_of k) (seq 0 (nl N))).
        { unfold s3. now rewrite step_links_calls, H2. }
        set (s4 := if i_worst u then _ else s3).
        assert (H4 : sCalls s4 = sCalls s3) by (unfold s4; destruct (i_worst u); reflexivity).
        destruct (build_and_solve_emits u s4) as (tr & B1 & B2).
        exists (flat_map (steps_of k) (seq 0 (nl N))), tr. split; [|split; [now right|]].
        + destruct (build_and_solve N u s4) as [s5|s5|s5]; cbn [bind out_state] in *;
            rewrite ?output_calls, ?override_calls, B1, H4, H3, app_assoc; reflexivity.
        + eapply Forall_impl; [|exact B2]. intros []; cbn; tauto. }
    assert (Hgen : forall tr0 tr1 tr2, (tr0 = [] \/ tr0 = flat_map (steps_of k) (seq 0 (nl N))) -> Forall not_link_call tr1 ->
       Forall is_judge_call tr2 -> (forall l, calls_bound k l (tr0 ++ tr1 ++ tr2)) /\ Forall (fun c => is_flow c = false) (tr0 ++ tr1 ++ tr2)).
    { intros tr0 tr1 tr2 H0 H1 Hj. split.
      - intros l. unfold calls_bound. rewrite !count_app.
        rewrite (count_none (is_link_step l) tr1), (count_none (is_link_minor l) tr1),
          (count_none (is_link_step l) tr2), (count_none (is_link_minor l) tr2);
          try (eapply Forall_impl; [|eassumption]; intros []; cbn; tauto).
        destruct H0 as [-> | ->]; [unfold count; cbn; destruct (Nat.eqb k 1); lia|].
        destruct (steps_of_count k l (nl N) 0) as (A & B).
        destruct (Nat.eqb k 1); destruct (_ && _) in *; lia.
      - apply Forall_app. split; [|apply Forall_app; split; (eapply Forall_impl; [|eassumption]; intros []; cbn; tauto)].
        destruct H0 as [-> | ->]; [constructor|]. apply Forall_flat_map, Forall_forall. intros l _. unfold steps_of.
        destruct (Nat.eqb k 1); [|destruct (l_nonlin N l)]; repeat constructor. }
    destruct HS as (tr0 & tr1 & E1 & H0 & H1).
    destruct solved as [s5|s5|s5]; cbn [out_state flow_state] in *.
    - destruct (negb (linear N) && is_normal (i_mode u)).
      + destruct (judge_emits u k s5 v) as (tr2 & E2 & H2').
        exists (tr0 ++ tr1 ++ tr2). split; [rewrite E2, E1, <- !app_assoc; reflexivity|]. auto.
      + exists (tr0 ++ tr1 ++ []). rewrite app_nil_r. split; [exact E1|].
        rewrite <- (app_nil_r tr1). auto.
    - exists (tr0 ++ tr1 ++ []). rewrite app_nil_r. split; [exact E1|]. rewrite <- (app_nil_r tr1). auto.
    - exists (tr0 ++ tr1 ++ []). rewrite app_nil_r. split; [exact E1|]. rewrite <- (app_nil_r tr1). auto.
  Qed.

  Lemma body_within u k s v d0 c0 : within N d0 c0 s ->
    within N d0 c0 (flow_state (minor_body N u k s v)) /\
    cMinor (flow_state (minor_body N u k s v)) = cMinor s + 1 /\
    (sMaj (flow_state (minor_body N u k s v)), cMajor (flow_state (minor_body N u k s v)), cFail (flow_state (minor_body N u k s v))) = (sMaj s, cMajor s, cFail s).
  Proof.
    intros Hw. unfold minor_body.
    set (s1 := set_cMinor _ _). set (s2 := if Nat.ltb (cMaxMinor s1) k then _ else s1).
    assert (W2 : within N d0 c0 s2) by (unfold s2; destruct (Nat.ltb _ _); exact Hw).
    assert (K2 : cMinor s2 = cMinor s + 1 /\ (sMaj s2, cMajor s2, cFail s2) = (sMaj s, cMajor s, cFail s)).
    { unfold s2. destruct (Nat.ltb _ _); split; reflexivity. }
    clearbody s2. clear s1.
    set (solved := if is_delay (v_res v) then _ else _).
    assert (HS : within N d0 c0 (out_state solved) /\ cMinor (out_state solved) = cMinor s2 /\
       (sMaj (out_state solved), cMajor (out_state solved), cFail (out_state solved)) = (sMaj s2, cMajor s2, cFail s2)).
    { unfold solved. destruct (is_delay (v_res v)); [auto|].
      set (s3 := step_links N (i_dt u) k s2).
      assert (C3 : core s3 = core s2) by apply step_links_core.
      set (s4 := if i_worst u then _ else s3).
      assert (C4 : core s4 = core s2) by (rewrite <- C3; unfold s4; destruct (i_worst u); reflexivity).
      pose proof (within_core N d0 c0 _ _ C4 W2) as W4. apply core_book in C4.
      clearbody s4. clear C3 s3.
      destruct (build_and_solve_frame N u s4) as (B & _ & d & D1 & D2 & D3 & D4 & D5).
      assert (W5 : within N d0 c0 (out_state (build_and_solve N u s4))).
      { destruct W4 as (X & Y & Z). unfold within. rewrite D2, D3, D4.
        destruct d as [|[|d]]; [rewrite !Nat.add_0_r|specialize (D5 eq_refl)|lia]; repeat split; lia. }
      rewrite C4 in B.
      destruct (build_and_solve N u s4) as [s5|s5|s5]; cbn [bind out_state] in *.
      - split; [|].
        + eapply within_core; [apply output_core|]. eapply within_counts; [apply override_counts|]. exact W5.
        + assert (B5 : book (output N u (override N u s5)) = book s2).
          { rewrite (core_book _ _ (output_core N u _)), override_book. exact B. }
          unfold book in B5. injection B5. intros; split; congruence.
      - split; [exact W5|]. unfold book in B. injection B. intros; split; congruence.
      - split; [exact W5|]. unfold book in B. injection B. intros; split; congruence. }
    destruct HS as (W5 & K5 & J5). destruct K2 as (K2 & J2).
    destruct solved as [s5|s5|s5]; cbn [out_state flow_state] in *;
      [|split; [exact W5|split; [lia|congruence]]..].
    destruct (negb (linear N) && is_normal (i_mode u)); cbn [flow_state]; [|split; [exact W5|split; [lia|congruence]]].
    pose proof (judge_frame N u k s5 v) as HJ. unfold keep in HJ. injection HJ. intros J1 J3 J4 J6 J7 J8 J9.
    split; [|split; [rewrite J7; lia|congruence]].
    eapply within_counts; [|exact W5]. congruence.
  Qed.

  Lemma minor_loop_budget u cnt : forall k s v d0 c0, within N d0 c0 s -> 1 <= k ->
    let s' := flow_state (minor_loop N u cnt k s v) in
    within N d0 c0 s' /\ cMinor s <= cMinor s' <= cMinor s + cnt /\
    (sMaj s', cMajor s', cFail s') = (sMaj s, cMajor s, cFail s) /\
    exists tr, sCalls s' = sCalls s ++ tr /\ Forall (fun c => is_flow c = false) tr /\
      forall l, count (is_link_step l) tr <= (if Nat.eqb k 1 then 1 else 0) /\
                count (is_link_minor l) tr <= (if Nat.eqb k 1 then cnt - 1 else cnt).
  Proof.
    induction cnt as [|c IH]; intros k s v d0 c0 Hw Hk; cbn [minor_loop].
    - cbn [flow_state]. split; [exact Hw|]. split; [cbn; lia|]. split; [reflexivity|].
      exists []. cbn. rewrite app_nil_r. split; [reflexivity|]. split; [constructor|].
      intros l. unfold count. cbn. destruct (Nat.eqb k 1); lia.
    - destruct (body_within u k s v d0 c0 Hw) as (W1 & K1 & J1).
      destruct (body_calls u k s v) as (tr & E1 & T1 & F1).
      assert (Hone : forall s', flow_state (minor_body N u k s v) = s' -> 
        within N d0 c0 s' /\ cMinor s <= cMinor s' <= cMinor s + S c /\
        (sMaj s', cMajor s', cFail s') = (sMaj s, cMajor s, cFail s) /\
        exists tr, sCalls s' = sCalls s ++ tr /\ Forall (fun c => is_flow c = false) tr /\
        forall l, count (is_link_step l) tr <= (if Nat.eqb k 1 then 1 else 0) /\
                  count (is_link_minor l) tr <= (if Nat.eqb k 1 then S c - 1 else S c)).
      { intros s' <-. split; [exact W1|]. split; [lia|]. split; [exact J1|]. exists tr. split; [exact E1|].
        split; [exact F1|]. intros l. specialize (T1 l). unfold calls_bound in T1. destruct (Nat.eqb k 1); lia. }
      destruct (minor_body N u k s v) as [s' v'|s' v'|s']; [|apply Hone; reflexivity..].
      cbn [flow_state] in *. clear Hone.
      destruct (IH (S k) s' v' d0 c0 W1 ltac:(lia)) as (W2 & K2 & J2 & tr2 & E2 & F2 & T2).
      split; [exact W2|]. split; [lia|]. split; [congruence|]. exists (tr ++ tr2).
      split; [rewrite E2, E1, app_assoc; reflexivity|]. split; [apply Forall_app; auto|].
      intros l. rewrite !count_app. specialize (T1 l). specialize (T2 l). unfold calls_bound in T1.
      destruct (Nat.eqb_spec (S k) 1) as [HSk|HSk]; [lia|]. destruct (Nat.eqb k 1); lia.
  Qed.

  (** The limit iterateMinorSteps uses, Gunns.cpp:831-834. *)
  Definition step_limit (u : input T) : nat :=
    if linear N || negb (is_normal (i_mode u)) then 1 else minor_limit N.

  Lemma in_flows_calls s :
    exists tr, sCalls (loop (fun i s => tell (CFlows i) (on_world (n_flows N i) s)) 0 (n + 1)
       (loop (fun l s => tell (CIn l) (on_world (l_in N l) s)) 0 (nl N) s)) = sCalls s ++ tr /\
      Forall (fun c => match c with CIn _ | CFlows _ => True | _ => False end) tr.
  Proof.
    rewrite (loop_calls (fun i s => tell (CFlows i) (on_world (n_flows N i) s)) (fun i => [CFlows i])) by reflexivity.
    rewrite (loop_calls (fun l s => tell (CIn l) (on_world (l_in N l) s)) (fun l => [CIn l])) by reflexivity.
    eexists. split; [symmetry; apply app_assoc|]. apply Forall_app.
    split; apply Forall_flat_map, Forall_forall; intros; repeat constructor.
  Qed.
  Lemma in_flows_core s :
    core (loop (fun i s => tell (CFlows i) (on_world (n_flows N i) s)) 0 (n + 1)
       (loop (fun l s => tell (CIn l) (on_world (l_in N l) s)) 0 (nl N) s)) = core s.
  Proof.
    rewrite (loop_pres core) by (intros; rewrite tell_core by reflexivity; apply on_world_core).
    apply (loop_pres core). intros. rewrite tell_core by reflexivity. apply on_world_core.
  Qed.

  Lemma out_calls s :
    exists tr, sCalls (loop (fun m s => let l := nl N - 1 - m in tell (COut l) (on_world (l_out N l) s)) 0 (nl N) s)
      = sCalls s ++ tr /\ Forall (fun c => match c with COut _ => True | _ => False end) tr.
  Proof.
    rewrite (loop_calls (fun m s => let l := nl N - 1 - m in tell (COut l) (on_world (l_out N l) s))
       (fun m => [COut (nl N - 1 - m)])) by reflexivity.
    eexists. split; [reflexivity|]. apply Forall_flat_map, Forall_forall; intros; repeat constructor.
  Qed.

  Theorem step_budget u s :
    let s' := snd (step N u s) in
    exists tr, sCalls s' = sCalls s ++ tr /\
      count is_decomp tr <= decomp_limit N /\
      cDecomp s' = cDecomp s + count is_decomp tr /\
      cMinor s <= cMinor s' <= cMinor s + step_limit u /\
      forall l, count (is_link_step l) tr <= 1 /\ count (is_link_minor l) tr <= step_limit u - 1.
  Proof.
    cbv zeta. unfold step. destruct (i_pause u).
    { exists []. rewrite app_nil_r. unfold count; cbn. repeat split; lia. }
    set (s1 := set_cMajor _ s).
    set (s3 := loop _ 0 (n + 1) _).
    assert (C3 : core s3 = core s1) by apply in_flows_core.
    destruct (in_flows_calls s1) as (tr0 & E0 & F0).
    change (sCalls s3 = sCalls s ++ tr0) in E0.
    assert (D3 : cDecomp s3 = cDecomp s /\ cMinor s3 = cMinor s).
    { unfold core in C3. injection C3. intros; split; assumption. }
    clearbody s3. clear s1 C3.
    unfold iterate. fold (step_limit u).
    set (s4 := set_sRecs [] (set_sLastDecomp 0 s3)). set (v0 := mklocal _ _ _).
    assert (W4 : within N (cDecomp s) (count is_decomp (sCalls s4)) s4).
    { unfold within. cbn. repeat split; lia. }
    destruct (minor_loop_budget u (step_limit u) 1 s4 v0 _ _ W4 (le_n 1)) as ((W5 & W5' & W5'') & K5 & _ & tr1 & E1 & F1 & T1).
    cbn [Nat.eqb] in T1.
    assert (Hz : count is_decomp tr0 = 0).
    { apply count_none. eapply Forall_impl; [|exact F0]. intros []; cbn; tauto. }
    assert (Hz2 : forall l, count (is_link_step l) tr0 = 0 /\ count (is_link_minor l) tr0 = 0).
    { intros l. split; apply count_none; (eapply Forall_impl; [|exact F0]); intros []; cbn; tauto. }
    assert (Hd : count is_decomp tr1 = sLastDecomp (flow_state (minor_loop N u (step_limit u) 1 s4 v0))).
    { rewrite E1, count_app in W5''. lia. }
    assert (Hfin : forall s' tr2,
      sCalls s' = sCalls (flow_state (minor_loop N u (step_limit u) 1 s4 v0)) ++ tr2 ->
      Forall (fun c => match c with CUpdate | COut _ => True | _ => False end) tr2 ->
      cDecomp s' = cDecomp (flow_state (minor_loop N u (step_limit u) 1 s4 v0)) ->
      cMinor s' = cMinor (flow_state (minor_loop N u (step_limit u) 1 s4 v0)) ->
      exists tr, sCalls s' = sCalls s ++ tr /\
      count is_decomp tr <= decomp_limit N /\
      cDecomp s' = cDecomp s + count is_decomp tr /\
      cMinor s <= cMinor s' <= cMinor s + step_limit u /\
      forall l, count (is_link_step l) tr <= 1 /\ count (is_link_minor l) tr <= step_limit u - 1).
    { intros s' tr2 X1 X2 X3 X4. exists (tr0 ++ tr1 ++ tr2).
      assert (Y : count is_decomp tr2 = 0).
      { apply count_none. eapply Forall_impl; [|exact X2]. intros []; cbn; tauto. }
      assert (Y2 : forall l, count (is_link_step l) tr2 = 0 /\ count (is_link_minor l) tr2 = 0).
      { intros l. split; apply count_none; (eapply Forall_impl; [|exact X2]); intros []; cbn; tauto. }
      split. { rewrite X1, E1. change (sCalls s4) with (sCalls s3). rewrite E0, <- !app_assoc. reflexivity. }
      rewrite !count_app, Hz, Y, Hd. split; [lia|]. split; [rewrite X3, W5'; lia|].
      split. { rewrite X4. change (cMinor s4) with (cMinor s3) in K5. lia. }
      intros l. rewrite !count_app. specialize (Hz2 l). specialize (Y2 l). specialize (T1 l). lia. }
    clear T1 E1 F1 W5 W5' W5'' K5.
    assert (Hgo : forall sx v,
      let s5 := if Nat.ltb (cMaxDecomp sx) (sLastDecomp sx) then set_cMaxDecomp (sLastDecomp sx) sx else sx in
      let s6 := if v_net v then
            let s := tell CUpdate (on_world (o_update N (i_dt u)) s5) in
            loop (fun m s => let l := nl N - 1 - m in tell (COut l) (on_world (l_out N l) s)) 0 (nl N) s
          else output N u (override N u (reset_to_major N (set_cFail (cFail s5 + 1) s5))) in
      exists tr2, sCalls (set_sRebuild false (save_major N s6)) = sCalls sx ++ tr2 /\
        Forall (fun c => match c with CUpdate | COut _ => True | _ => False end) tr2 /\
        cDecomp (set_sRebuild false (save_major N s6)) = cDecomp sx /\
        cMinor (set_sRebuild false (save_major N s6)) = cMinor sx).
    { intros sx v s5 s6.
      assert (H5 : sCalls s5 = sCalls sx /\ cDecomp s5 = cDecomp sx /\ cMinor s5 = cMinor sx).
      { unfold s5. destruct (Nat.ltb _ _); auto. }
      destruct H5 as (H5 & H5' & H5''). clearbody s5. unfold s6. destruct (v_net v).
      - cbv zeta. set (s7 := tell CUpdate _).
        destruct (out_calls s7) as (tr & X1 & X2). cbv zeta in X1.
        exists (CUpdate :: tr). split; [|split; [|]].
        + cbn [set_sRebuild save_major set_sMaj sCalls]. rewrite X1. unfold s7. cbn. rewrite H5, <- app_assoc. reflexivity.
        + constructor; [exact I|]. eapply Forall_impl; [|exact X2]. intros []; cbn; tauto.
        + cbn [set_sRebuild save_major set_sMaj cDecomp cMinor].
          set (f := fun (m : nat) (s0 : st) => _).
          assert (HC : core (loop f 0 (nl N) s7) = core s7).
          { apply (loop_pres core). intros. unfold f. cbv zeta. rewrite tell_core by reflexivity. apply on_world_core. }
          unfold core in HC. injection HC. intros. split; [rewrite <- H5'|rewrite <- H5'']; assumption.
      - exists []. rewrite app_nil_r. split; [|split; [constructor|]].
        + cbn [set_sRebuild save_major set_sMaj sCalls]. rewrite output_calls, override_calls. exact H5.
        + cbn [set_sRebuild save_major set_sMaj cDecomp cMinor].
          set (y := reset_to_major N _).
          pose proof (core_budget _ _ (output_core N u (override N u y))) as B1.
          pose proof (core_book _ _ (output_core N u (override N u y))) as B2. rewrite override_book in B2.
          pose proof (override_counts N u y) as B3.
          unfold budget in B1. unfold book in B2. injection B1; injection B2; injection B3. intros.
          change (cDecomp y) with (cDecomp s5) in *. change (cMinor y) with (cMinor s5) in *. split; congruence. }
    destruct (minor_loop N u (step_limit u) 1 s4 v0) as [sx v|sx v|sx]; cbn [flow_state snd] in *.
    - destruct (Hgo sx v) as (tr2 & X1 & X2 & X3 & X4). eapply Hfin; eassumption.
    - destruct (Hgo sx v) as (tr2 & X1 & X2 & X3 & X4). eapply Hfin; eassumption.
    - apply (Hfin sx []); auto. now rewrite app_nil_r.
  Qed.
End Budget.
