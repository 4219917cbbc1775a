(** Solver step: in NORMAL mode with honest links the factorisation solved
    with is that of the links' current admittances (the part of C18 that holds). *)
From Coq Require Import Lia List Arith Bool ZArith.
From Verif Require Import Num Loops Ldu Assembly Islands IslandSolve StepModel Spec_Step StepFacts StepBudget StepConv StepThms.
Import ListNotations.

Section Factor.
  Context {T : Type} `{NT : Num T} {E : Type}.
  Variable N : net T E.
  Local Notation n := (nn N).
  Local Notation st := (state T E).
  Local Notation env s := (w_env (sWorld s)).

  (** Same admittance contribution of link [l]. *)
  Definition same_adm (l : nat) (e e' : E) : Prop :=
    l_msize N l e = l_msize N l e' /\ l_map N l e = l_map N l e' /\ l_adm N l e = l_adm N l e'.

  (** [M] was produced by decomposing the conditioned admittance sum of [e],
      as a whole or island by island. *)
  Definition factor_of (e : E) (M : mat T) : Prop :=
    exists b, let A := view n (build_admittance n (links_of N e) b) in
      decompose n (condition n A) = inl M \/
      exists iv, decompose_islands n (island_vectors n (island_labels n (nonzero A) (fun i => i)) iv) (condition n A) = inl M.

  (** The links' update flags: [dirty l] is what needAdmittanceUpdate would answer. *)
  Variable dirty : nat -> E -> bool.
  (** A change of [l] from [e] to [e'] is either none or flagged. *)
  Definition flagged (l : nat) (e e' : E) : Prop :=
    dirty l e' = true \/ (same_adm l e e' /\ dirty l e' = dirty l e).
  Definition untouched (l : nat) (e e' : E) : Prop := same_adm l e e' /\ dirty l e' = dirty l e.
  Definition flags (f : world T E -> world T E) : Prop := forall l w, l < nl N -> flagged l (w_env w) (w_env (f w)).

  (** The contract of the links: changes are flagged; while being stepped or
      polled a link does not touch other links; polling answers and clears. *)
  Record honest : Prop := {
    h_in : forall l, flags (l_in N l);
    h_flows : forall i, flags (n_flows N i);
    h_confirm : forall l c k, flags (fun w => snd (l_confirm N l c k w));
    h_reset : forall l c k, flags (fun w => snd (l_reset N l c k w));
    h_out : forall l, flags (l_out N l);
    h_update : forall dt, flags (o_update N dt);
    h_step : forall l dt, flags (l_step N l dt);
    h_minor : forall l dt k, flags (l_minor N l dt k);
    h_step_own : forall l l' dt w, l < nl N -> l' <> l -> untouched l (w_env w) (w_env (l_step N l' dt w));
    h_minor_own : forall l l' dt k w, l < nl N -> l' <> l -> untouched l (w_env w) (w_env (l_minor N l' dt k w));
    h_need : forall l w, l < nl N -> fst (l_need N l w) = dirty l (w_env w) /\ dirty l (w_env (snd (l_need N l w))) = false;
    h_need_adm : forall l l' w, l < nl N -> same_adm l (w_env w) (w_env (snd (l_need N l' w)));
    h_need_own : forall l l' w, l < nl N -> l' <> l -> dirty l (w_env (snd (l_need N l' w))) = dirty l (w_env w)
  }.
  Hypothesis HH : honest.

  Lemma adm_refl l e : same_adm l e e.
  Proof. repeat split. Qed.
  Lemma adm_trans l a b c : same_adm l a b -> same_adm l b c -> same_adm l a c.
  Proof. intros (A & B & C) (A' & B' & C'). repeat split; congruence. Qed.

  Lemma build_ext e e' : (forall l, l < nl N -> same_adm l e e') ->
    forall b, build_admittance n (links_of N e) b = build_admittance n (links_of N e') b.
  Proof.
    intros Hs b. unfold build_admittance, links_of. generalize (clear (n * n) b).
    assert (Hin : forall l, In l (seq 0 (nl N)) -> same_adm l e e') by (intros l Hl; apply in_seq in Hl; apply Hs; lia).
    revert Hin. generalize (seq 0 (nl N)). induction l as [|x l IH]; intros Hin F; cbn [map fold_left]; [reflexivity|].
    assert (Hx : add_link (n * n) F (show N e x) = add_link (n * n) F (show N e' x)).
    { destruct (Hin x (or_introl eq_refl)) as (A & B & C). unfold add_link, show. cbn. now rewrite A, B, C. }
    rewrite Hx. apply IH. intros y Hy. apply Hin. now right.
  Qed.
  Lemma factor_ext e e' M : (forall l, l < nl N -> same_adm l e e') -> factor_of e M -> factor_of e' M.
  Proof.
    intros Hs (b & H). exists b. cbv zeta in *. rewrite <- (build_ext e e' Hs). exact H.
  Qed.

  (** The factorisation is that of [e0], and whoever changed since is flagged. *)
  Definition tracked (A : mat T) (e : E) : Prop :=
    exists e0, factor_of e0 A /\ forall l, l < nl N -> dirty l e = true \/ same_adm l e0 e.
  Definition current (s : st) : Prop := tracked (sA s) (env s).
  Definition pending (s : st) : Prop := sRebuild s = true \/ current s.

  Lemma tracked_flags A f w : flags f -> tracked A (w_env w) -> tracked A (w_env (f w)).
  Proof.
    intros Hf (e0 & F & H). exists e0. split; [exact F|]. intros l Hl.
    destruct (Hf l w Hl) as [D|(Sm & D)]; [now left|]. rewrite D.
    destruct (H l Hl) as [|S0]; [now left|]. right. eapply adm_trans; eauto.
  Qed.

  (** Polling: a state where links below [m] are clean. *)
  Definition polled (m : nat) (s : st) : Prop :=
    sRebuild s = true \/
    exists e0, factor_of e0 (sA s) /\
      (forall l, l < m -> same_adm l e0 (env s)) /\
      (forall l, m <= l -> l < nl N -> dirty l (env s) = true \/ same_adm l e0 (env s)).

  Lemma step_link_polled dt k m s : m < nl N -> polled m s -> polled (S m) (step_link N dt k m s).
  Proof.
    intros Hm Hp. unfold step_link.
    set (s1 := if Nat.eqb k 1 then _ else _).
    assert (H1 : polled m s1 /\ sA s1 = sA s).
    { assert (HG : forall f c, flags f -> (forall l w, l < nl N -> m <> l -> untouched l (w_env w) (w_env (f w))) ->
         polled m (tell c (on_world f s)) /\ sA (tell c (on_world f s)) = sA s).
      { intros f c Hf Ho. split; [|reflexivity]. destruct Hp as [Hr|(e0 & F & A & B)]; [now left|right].
        exists e0. cbn. split; [exact F|]. split.
        - intros l Hl. destruct (Ho l (sWorld s) ltac:(lia) ltac:(lia)) as (X & _). eapply adm_trans; [|exact X]. now apply A.
        - intros l Hl Hl'. destruct (Hf l (sWorld s) Hl') as [D|(Sm & D)]; [now left|]. rewrite D.
          destruct (B l Hl Hl') as [|S0]; [now left|]. right. eapply adm_trans; eauto. }
      unfold s1. destruct (Nat.eqb k 1); [|destruct (l_nonlin N m)].
      - apply HG; [apply (h_step HH)|]. intros. now apply (h_step_own HH).
      - apply HG; [apply (h_minor HH)|]. intros. now apply (h_minor_own HH).
      - auto. }
    clearbody s1. destruct H1 as (H1 & _).
    destruct (h_need HH m (sWorld s1) Hm) as (HN1 & HN2).
    pose proof (h_need_adm HH) as HA. pose proof (h_need_own HH) as HO.
    specialize (HA). destruct (l_need N m (sWorld s1)) as [b w] eqn:Hb. cbn [fst snd] in HN1, HN2.
    destruct b; [left; reflexivity|]. destruct H1 as [Hr|(e0 & F & A & B)]; [left; exact Hr|right].
    exists e0. cbn. split; [exact F|].
    assert (HAm : forall l, l < nl N -> same_adm l (env s1) (w_env w)).
    { intros l Hl. pose proof (HA l m (sWorld s1) Hl) as X. rewrite Hb in X. exact X. }
    split.
    - intros l Hl. assert (l < m \/ l = m) as [Hlm|Hlm] by lia.
      + eapply adm_trans; [now apply A|]. apply HAm. lia.
      + subst l. destruct (B m ltac:(lia) Hm) as [D|S0]; [congruence|]. eapply adm_trans; [exact S0|]. now apply HAm.
    - intros l Hl Hl'. pose proof (HO l m (sWorld s1) Hl' ltac:(lia)) as X. rewrite Hb in X. cbn [snd] in X. rewrite X.
      destruct (B l ltac:(lia) Hl') as [|S0]; [now left|]. right. eapply adm_trans; [exact S0|]. now apply HAm.
  Qed.

  Lemma step_links_polled dt k s : pending s -> polled (nl N) (step_links N dt k s).
  Proof.
    intros Hp. unfold step_links.
    pose proof (loop_inv (fun m s => polled m s) (step_link N dt k) (nl N) 0 s) as HL. apply HL.
    - destruct Hp as [|(e0 & F & H)]; [now left|right]. exists e0. repeat split; auto; intros; lia.
    - intros m s0 Hm Hs. apply step_link_polled; [lia|exact Hs].
  Qed.

  (** The solves a call list contains are all with the current factorisation. *)
  Definition good_call (c : call T E) : Prop := match c with CSolve M e => factor_of e M | _ => True end.
  Lemma weak_calls Q (s s' : st) : emits Q s s' -> (forall c, Q c -> good_call c) -> emits good_call s s'.
  Proof. intros H HQ. eapply emits_weaken; [exact HQ|exact H]. Qed.

  Definition fixed (s s' : st) : Prop := sA s' = sA s /\ env s' = env s.

  Lemma solve_step_good s : factor_of (env s) (sA s) ->
    emits good_call s (out_state (solve_step N s)) /\ fixed s (out_state (solve_step N s)).
  Proof.
    intros Hf. unfold solve_step. destruct (solve _ _ _ _) as [x|[k x]]; cbn [out_state];
      (split; [eexists; split; [reflexivity|]; repeat constructor; exact Hf|split; reflexivity]).
  Qed.
  Lemma perturb_good s : factor_of (env s) (sA s) ->
    emits good_call s (out_state (perturb N s)) /\ fixed s (out_state (perturb N s)).
  Proof.
    intros Hf. unfold perturb.
    pose proof (loop_inv (fun _ o => emits good_call s (out_state o) /\ fixed s (out_state o)) (perturb_node N) n 0 (Fine s)) as HL.
    apply HL; [split; [apply emits_same; reflexivity|split; reflexivity]|]. clear HL. intros i o Hi (Ho & Hx).
    destruct o as [s0|s0|s0]; [|split; assumption..]. cbn [perturb_node bind out_state] in *.
    destruct (neps <~ w_req (sWorld s0) i); [|split; [exact Ho|exact Hx]].
    set (s1 := set_sSrc _ s0). 
    assert (Hf1 : factor_of (env s1) (sA s1)).
    { destruct Hx as (X1 & X2). change (env s1) with (env s0). change (sA s1) with (sA s0). now rewrite X1, X2. }
    destruct (solve_step_good s1 Hf1) as (H1 & H2 & H3).
    assert (He : emits good_call s (out_state (solve_step N s1))) by (eapply emits_trans; [exact Ho|exact H1]).
    assert (Hfx : fixed s (out_state (solve_step N s1))).
    { destruct Hx as (X1 & X2). split; [rewrite H2; exact X1|rewrite H3; exact X2]. }
    destruct (solve_step N s1) as [s2|s2|s2]; cbn [bind out_state] in *; split; assumption.
  Qed.
  Lemma netcap_fixed dt s : fixed s (netcap N dt s).
  Proof.
    split.
    - apply (loop_pres (@sA T E)). intros i s0. unfold netcap_node. destruct (neps <~ _); reflexivity.
    - apply (loop_pres (fun s : st => env s)). intros i s0. unfold netcap_node. destruct (neps <~ _); reflexivity.
  Qed.

  Lemma decompose_step_good im s : let e := env s in
    (exists b, sA s = condition n (view n (build_admittance n (links_of N e) b)) /\
       (im = SOLVE -> exists iv, sIvec s = island_vectors n (island_labels n
           (nonzero (view n (build_admittance n (links_of N e) b))) (fun i => i)) iv)) ->
    match decompose_step N im s with
    | Fine s' => factor_of e (sA s') /\ env s' = e /\ sCalls s' = sCalls s /\ sRebuild s' = sRebuild s /\ sLastDecomp s' = sLastDecomp s
    | Limit _ => False
    | Numeric s' => sCalls s' = sCalls s
    end.
  Proof.
    intros e (b & HA & HI). unfold decompose_step. rewrite HA. destruct im.
    1,2: destruct (decompose n _) as [M|[? M]] eqn:Hd; cbn; [|reflexivity];
      repeat split; exists b; left; exact Hd.
    destruct (HI eq_refl) as (iv & ->).
    destruct (decompose_islands n _ _) as [M|[[? ?] M]] eqn:Hd; cbn; [|reflexivity].
    repeat split. exists b. right. exists iv. exact Hd.
  Qed.

  Lemma rebuild_source_fixed s : fixed s (rebuild_source N s) /\ sRebuild (rebuild_source N s) = sRebuild s /\
    sCalls (rebuild_source N s) = sCalls s /\ sLastDecomp (rebuild_source N s) = sLastDecomp s.
  Proof. unfold rebuild_source. destruct (build_source _ _ _); repeat split. Qed.

  (** After polling every link, building and solving uses the current factors. *)
  Lemma build_good u s : i_mode u = NORMAL -> i_sor u = false -> sLastDecomp s < decomp_limit N ->
    polled (nl N) s ->
    emits good_call s (out_state (build_and_solve N u s)) /\
    match build_and_solve N u s with
    | Fine s' => factor_of (env s') (sA s')
    | Limit _ => False
    | Numeric _ => True
    end.
  Proof.
    intros Hm Hs Hd Hp. unfold build_and_solve. rewrite Hm, Hs. cbn [is_normal andb orb Z.ltb Z.compare].
    destruct (rebuild_source_fixed s) as ((Fa & Fe) & Fr & Fc & Fl).
    set (s1 := rebuild_source N s) in *. clearbody s1. rewrite orb_false_r.
    assert (Hend : forall s4, emits good_call s s4 -> factor_of (env s4) (sA s4) ->
       let r := bind (perturb N s4) (fun s5 => bind (solve_step N s5) (fun s6 => Fine (netcap N (i_dt u) (clean N s6)))) in
       emits good_call s (out_state r) /\ match r with Fine s' => factor_of (env s') (sA s') | Limit _ => False | Numeric _ => True end).
    { intros s4 H4 Hf. cbv zeta. destruct (perturb_good s4 Hf) as (P1 & P2).
      assert (HnoL : forall s0, match perturb N s0 with Limit _ => False | _ => True end).
      { intros s0. unfold perturb.
        pose proof (loop_inv (fun _ o => match o with Limit _ => False | _ => True end) (perturb_node N) n 0 (Fine s0)) as HL.
        apply HL; [exact I|]. clear HL. intros i o _ Ho. destruct o as [y|y|y]; cbn; auto.
        destruct (neps <~ _); [|exact I].
        set (y' := set_sSrc _ y). unfold solve_step. destruct (solve _ _ _ _) as [x|[k x]]; exact I. }
      specialize (HnoL s4).
      pose proof (emits_trans _ _ _ _ H4 P1) as P3.
      destruct (perturb N s4) as [s5|s5|s5]; cbn [bind out_state] in *; [|contradiction|auto].
      assert (Hf5 : factor_of (env s5) (sA s5)) by (destruct P2 as (X & Y); now rewrite X, Y).
      destruct (solve_step_good s5 Hf5) as (Q1 & Q2).
      pose proof (emits_trans _ _ _ _ P3 Q1) as Q3.
      assert (Hno2 : match solve_step N s5 with Limit _ => False | _ => True end).
      { unfold solve_step. destruct (solve _ _ _ _) as [x|[k x]]; exact I. }
      destruct (solve_step N s5) as [s6|s6|s6]; cbn [bind out_state] in *; [|contradiction|auto].
      destruct (netcap_fixed (i_dt u) (clean N s6)) as (Y1 & Y2). split.
      - eapply emits_trans; [exact Q3|]. apply emits_same. rewrite netcap_calls. reflexivity.
      - rewrite Y1, Y2. destruct Q2 as (X & Y). change (env (clean N s6)) with (env s6). change (sA (clean N s6)) with (sA s6).
        now rewrite X, Y. }
    destruct (sRebuild s1 || i_debug u) eqn:Hneed; cbn [andb].
    - set (s2 := set_sRebuild false (rebuild_matrix N (i_island u) s1)).
      assert (H2 : sCalls s2 = sCalls s /\ sLastDecomp s2 = sLastDecomp s).
      { unfold s2. cbn [set_sRebuild sCalls sLastDecomp]. split; [rewrite rebuild_matrix_calls; exact Fc|].
        rewrite <- Fl. unfold rebuild_matrix. destruct (i_island u); reflexivity. }
      destruct H2 as (H2 & H2'). rewrite H2'. apply Nat.ltb_lt in Hd. rewrite Hd.
      set (s3 := tell CDecomp _).
      assert (H3 : emits good_call s s3).
      { exists [CDecomp]. unfold s3. cbn [tell set_sCalls sCalls set_cDecomp set_sLastDecomp]. rewrite H2. split; [reflexivity|repeat constructor]. }
      pose proof (decompose_step_good (i_island u) s3) as HD. cbv zeta in HD.
      assert (Hpre : exists b, sA s3 = condition n (view n (build_admittance n (links_of N (env s3)) b)) /\
       (i_island u = SOLVE -> exists iv, sIvec s3 = island_vectors n (island_labels n
           (nonzero (view n (build_admittance n (links_of N (env s3)) b))) (fun i => i)) iv)).
      { exists (unview N (sA s1)). unfold s3, s2, rebuild_matrix. destruct (i_island u); cbn; split; try reflexivity; try discriminate.
        intros _. eexists. reflexivity. }
      specialize (HD Hpre). destruct (decompose_step N (i_island u) s3) as [s4|s4|s4]; cbn [bind out_state].
      + destruct HD as (D1 & D2 & D3 & D4). apply Hend.
        * eapply emits_trans; [exact H3|]. now apply emits_same.
        * now rewrite D2.
      + contradiction.
      + split; [|exact I]. eapply emits_trans; [exact H3|]. now apply emits_same.
    - cbn [bind]. apply orb_false_elim in Hneed. destruct Hneed as (Hr & _). apply Hend; [now apply emits_same|].
      rewrite Fr in Hr. destruct Hp as [Hp|(e0 & F & A & _)]; [congruence|].
      rewrite Fa, Fe. eapply factor_ext; [|exact F]. exact A.
  Qed.

  Lemma current_of_factor (s : st) : factor_of (env s) (sA s) -> current s.
  Proof. intros H. exists (env s). split; [exact H|]. intros. right. apply adm_refl. Qed.

  Lemma core_fixed_A (s s' : st) : core s' = core s -> sLastDecomp s' = sLastDecomp s.
  Proof. unfold core. intros H. injection H. auto. Qed.

  (** sA is only written by building. *)
  Lemma confirm_A c k s : sA (snd (confirm N c k s)) = sA s.
  Proof.
    unfold confirm. change (sA s) with (sA (snd (CONFIRM, s))).
    apply (loop_pres (fun a : decision * st => sA (snd a))). intros l a. unfold confirm_link.
    destruct (l_nonlin N l); [|reflexivity]. destruct (l_confirm N l c k (sWorld (snd a))); reflexivity.
  Qed.
  Lemma reset_A c k s : sA (reset_links N c k s) = sA s.
  Proof.
    apply (loop_pres (@sA T E)). intros l a. unfold reset_link.
    destruct (l_nonlin N l); [|reflexivity]. destruct (l_reset N l c k (sWorld a)) as [[|] w]; reflexivity.
  Qed.
  Lemma output_A u s : sA (output N u s) = sA s.
  Proof. unfold output. destruct (i_mode u); reflexivity. Qed.
  Lemma override_A u s : sA (override N u s) = sA s /\ sWorld (override N u s) = sWorld s.
  Proof.
    assert (Hl : forall l s, sA (override_link N l s) = sA s /\ sWorld (override_link N l s) = sWorld s).
    { intros l s0. unfold override_link. split.
      - apply (loop_pres (@sA T E)). intros p x. destruct (_ && _); reflexivity.
      - apply (loop_pres (@sWorld T E)). intros p x. destruct (_ && _); reflexivity. }
    unfold override. destruct (i_mode u); [|split; reflexivity..]. split.
    - apply (loop_pres (@sA T E)). intros. apply Hl.
    - apply (loop_pres (@sWorld T E)). intros. apply Hl.
  Qed.

  Lemma confirm_current c k s : current s -> current (snd (confirm N c k s)).
  Proof.
    intros Hc. unfold current. rewrite confirm_A. unfold confirm.
    pose proof (loop_inv (fun _ (a : decision * st) => tracked (sA s) (env (snd a))) (confirm_link N c k) (nl N) 0 (CONFIRM, s) Hc) as HL.
    apply HL. intros l a Hl IH. unfold confirm_link. destruct (l_nonlin N l); [|exact IH].
    pose proof (tracked_flags _ _ _ (h_confirm HH l c k) IH) as X. cbn in X.
    destruct (l_confirm N l c k (sWorld (snd a))) as [d w]. exact X.
  Qed.
  Lemma reset_current c k s : current s -> current (reset_links N c k s).
  Proof.
    intros Hc. unfold current. rewrite reset_A. unfold reset_links.
    pose proof (loop_inv (fun _ (a : st) => tracked (sA s) (env a)) (reset_link N c k) (nl N) 0 s Hc) as HL.
    apply HL. intros l a Hl IH. unfold reset_link. destruct (l_nonlin N l); [|exact IH].
    pose proof (tracked_flags _ _ _ (h_reset HH l c k) IH) as X. cbn in X.
    destruct (l_reset N l c k (sWorld a)) as [[|] w]; exact X.
  Qed.
  Lemma judge_current u k s v : current s -> current (flow_state (judge N u k s v)).
  Proof.
    intros Hc. unfold judge. set (p := if is_delay (v_res v) then _ else _).
    assert (Hp : current (snd p)).
    { unfold p. destruct (is_delay (v_res v)); [exact Hc|]. unfold check_convergence. destruct (loop _ _ _ _). exact Hc. }
    destruct p as [ok s1]. cbn [snd] in Hp. set (c := if ok then _ else _).
    pose proof (confirm_current c k s1 Hp) as H2. destruct (confirm N c k s1) as [d s2]. cbn [snd] in H2.
    destruct (is_reject d).
    - cbn [flow_state]. change (current (reset_links N c k (output N u (reset_to_minor N s2)))).
      apply reset_current. unfold current. rewrite output_A, output_env. exact H2.
    - destruct (is_confirm d && Nat.ltb 0 c); [destruct (negb (i_worst u) || _)|]; exact H2.
  Qed.

  Lemma body_good u k s v : i_mode u = NORMAL -> i_sor u = false -> sLastDecomp s < decomp_limit N ->
    (v_res v = DELAY -> current s) -> pending s ->
    emits good_call s (flow_state (minor_body N u k s v)) /\
    match minor_body N u k s v with Go s' _ | Stop s' _ => current s' | Throw _ => True end.
  Proof.
    intros Hm Hs Hd Hv Hp. unfold minor_body.
    set (s2 := set_cMinor _ _). set (s3 := if Nat.ltb (cMaxMinor s2) k then _ else s2).
    assert (H3 : (sA s3, sRebuild s3, sWorld s3, sCalls s3, sLastDecomp s3) = (sA s, sRebuild s, sWorld s, sCalls s, sLastDecomp s))
      by (unfold s3; destruct (Nat.ltb _ _); reflexivity).
    clearbody s3. clear s2. injection H3. intros L3 C3 W3 R3 A3. clear H3.
    set (solved := if is_delay (v_res v) then _ else _).
    assert (HS : emits good_call s (out_state solved) /\ match solved with Fine s5 => current s5 | Limit _ => False | Numeric _ => True end).
    { unfold solved.
      assert (Hbuild : let s3 := step_links N (i_dt u) k s3 in
        let s4 := if i_worst u then set_sRebuild true s3 else s3 in
        let r := bind (build_and_solve N u s4) (fun s5 => Fine (output N u (override N u s5))) in
        emits good_call s (out_state r) /\ match r with Fine s5 => current s5 | Limit _ => False | Numeric _ => True end).
      { cbv zeta. assert (Hp3 : pending s3).
        { destruct Hp as [Hr|Hc]; [left; congruence|right]. unfold current. now rewrite A3, W3. }
        pose proof (step_links_polled (i_dt u) k s3 Hp3) as HP.
        pose proof (core_fixed_A _ _ (step_links_core N (i_dt u) k s3)) as HLd.
        assert (Hem : emits good_call s (step_links N (i_dt u) k s3)).
        { exists (flat_map (steps_of N k) (seq 0 (nl N))). rewrite step_links_calls. split; [congruence|].
          apply Forall_flat_map, Forall_forall. intros l _. unfold steps_of.
          destruct (Nat.eqb k 1); [|destruct (l_nonlin N l)]; repeat constructor. }
        set (s5 := step_links N (i_dt u) k s3) in *. clearbody s5.
        set (s4 := if i_worst u then _ else s5).
        assert (H4 : polled (nl N) s4 /\ sLastDecomp s4 = sLastDecomp s /\ emits good_call s s4).
        { unfold s4. destruct (i_worst u); (split; [|split; [cbn; congruence|exact Hem]]); [left; reflexivity|exact HP]. }
        clearbody s4. destruct H4 as (H4 & H4' & H4'').
        destruct (build_good u s4 Hm Hs ltac:(lia) H4) as (B1 & B2).
        pose proof (emits_trans _ _ _ _ H4'' B1) as B3.
        destruct (build_and_solve N u s4) as [s6|s6|s6]; cbn [bind out_state] in *; [|contradiction|auto].
        destruct (override_A u s6) as (O1 & O2). split.
        - eapply emits_trans; [exact B3|]. apply emits_same. rewrite output_calls. apply override_calls.
        - apply current_of_factor. rewrite output_A, output_env, O1, O2. exact B2. }
      destruct (v_res v) eqn:Hvr; cbn [is_delay]; [exact Hbuild| |exact Hbuild].
      cbn [out_state]. split; [now apply emits_same|]. unfold current. rewrite A3, W3. now apply Hv. }
    destruct HS as (HS1 & HS2). destruct solved as [s5|s5|s5]; cbn [out_state flow_state] in *; [|contradiction|auto].
    destruct (negb (linear N) && is_normal (i_mode u)); [|auto].
    pose proof (judge_current u k s5 v HS2) as HJ. pose proof (judge_emits N u k s5 v) as HE.
    split.
    - eapply emits_trans; [exact HS1|]. eapply weak_calls; [exact HE|]. intros []; cbn; tauto.
    - destruct (judge N u k s5 v); [exact HJ..|exact I].
  Qed.

  Lemma body_decomp u k s v : sLastDecomp (flow_state (minor_body N u k s v)) <= sLastDecomp s + 1.
  Proof.
    unfold minor_body.
    set (s2 := set_cMinor _ _). set (s3 := if Nat.ltb (cMaxMinor s2) k then _ else s2).
    assert (H3 : sLastDecomp s3 = sLastDecomp s) by (unfold s3; destruct (Nat.ltb _ _); reflexivity).
    clearbody s3. clear s2.
    set (solved := if is_delay (v_res v) then _ else _).
    assert (HS : sLastDecomp (out_state solved) <= sLastDecomp s + 1).
    { unfold solved. destruct (is_delay (v_res v)); [cbn; lia|]. cbv zeta.
      pose proof (core_fixed_A _ _ (step_links_core N (i_dt u) k s3)) as HLd.
      set (s5 := step_links N (i_dt u) k s3) in *. clearbody s5. set (s4 := if i_worst u then _ else s5).
      assert (H4 : sLastDecomp s4 = sLastDecomp s) by (unfold s4; rewrite <- H3, <- HLd; destruct (i_worst u); reflexivity).
      clearbody s4.
      assert (HB : sLastDecomp (out_state (build_and_solve N u s4)) <= sLastDecomp s4 + 1).
      { destruct (build_and_solve_frame N u s4) as (_ & _ & d & HD1 & HD2 & _). lia. }
      destruct (build_and_solve N u s4) as [s6|s6|s6]; cbn [bind out_state] in *; try lia.
      rewrite (core_fixed_A _ _ (output_core N u (override N u s6))).
      pose proof (override_counts N u s6) as X. injection X. intros. lia. }
    destruct solved as [s5|s5|s5]; cbn [out_state flow_state] in *; try lia.
    destruct (negb (linear N) && is_normal (i_mode u)); [|exact HS].
    pose proof (judge_frame N u k s5 v) as HJ. unfold keep in HJ. injection HJ. intros. lia.
  Qed.

  Lemma loop_good u : i_mode u = NORMAL -> i_sor u = false -> forall cnt k s v,
    sLastDecomp s + cnt <= decomp_limit N -> 1 <= cnt \/ current s ->
    (v_res v = DELAY -> current s) -> pending s ->
    emits good_call s (flow_state (minor_loop N u cnt k s v)) /\
    match minor_loop N u cnt k s v with Go s' _ | Stop s' _ => current s' | Throw _ => True end.
  Proof.
    intros Hm Hs. induction cnt as [|c IH]; intros k s v Hd Hc Hv Hp; cbn [minor_loop].
    - destruct Hc as [|Hc]; [lia|]. split; [now apply emits_same|exact Hc].
    - destruct (body_good u k s v Hm Hs ltac:(lia) Hv Hp) as (B1 & B2).
      pose proof (body_decomp u k s v) as B3.
      destruct (minor_body N u k s v) as [s' v'|s' v'|s']; cbn [flow_state] in *; [|auto..].
      destruct (IH (S k) s' v') as (I1 & I2); [lia|now right|intros _; exact B2|now right|].
      split; [eapply emits_trans; eauto|exact I2].
  Qed.

  Theorem step_good u s : i_mode u = NORMAL -> i_sor u = false ->
    1 <= minor_limit N <= decomp_limit N -> pending s ->
    emits good_call s (snd (step N u s)) /\
    (fst (step N u s) <> Thrown -> pending (snd (step N u s))).
  Proof.
    intros Hm Hs Hlim Hp.
    destruct (i_pause u) eqn:Hpa.
    { unfold step. rewrite Hpa. split; [now apply emits_same|]. intros _. exact Hp. }
    rewrite step_eq by exact Hpa.
    assert (H0 : pending (start N s) /\ emits good_call s (start N s)).
    { split.
      - unfold start. set (s1 := set_cMajor _ s).
        assert (HP : forall f c cnt, (forall i, flags (f i)) -> forall lo s0, pending s0 -> 
           pending (loop (fun i s => tell (c i) (on_world (f i) s)) lo cnt s0)).
        { intros f c. induction cnt as [|m IH]; intros Hf lo s0 H0; cbn [loop]; [exact H0|]. apply IH; [exact Hf|].
          destruct H0 as [H0|H0]; [now left|right]. unfold current. cbn. now apply tracked_flags. }
        apply (HP (fun i => n_flows N i) (fun i => CFlows i)); [apply (h_flows HH)|].
        apply (HP (fun i => l_in N i) (fun i => CIn i)); [apply (h_in HH)|exact Hp].
      - destruct (in_flows_calls N (set_cMajor (cMajor s + 1) s)) as (tr0 & X & Y). exists tr0. split; [exact X|].
        eapply Forall_impl; [|exact Y]. intros []; cbn; tauto. }
    destruct H0 as (H0 & H0').
    set (s0 := set_sRecs [] (set_sLastDecomp 0 (start N s))).
    destruct (loop_good u Hm Hs (if linear N || negb (is_normal (i_mode u)) then 1 else minor_limit N) 1 s0
      (mklocal CONFIRM 0 (linear N || negb (is_normal (i_mode u))))) as (L1 & L2).
    { cbn. destruct (linear N || _); lia. }
    { left. destruct (linear N || _); lia. }
    { discriminate. }
    { exact H0. }
    change (minor_loop N u (if linear N || negb (is_normal (i_mode u)) then 1 else minor_limit N) 1 s0
      (mklocal CONFIRM 0 (linear N || negb (is_normal (i_mode u))))) with (iterate N u (start N s)) in L1, L2.
    assert (L3 : emits good_call s (flow_state (iterate N u (start N s)))) by (eapply emits_trans; [exact H0'|exact L1]).
    assert (HF : forall sx b, emits good_call s sx -> current sx -> emits good_call s (finish N u sx b) /\ pending (finish N u sx b)).
    { intros sx b X1 X2. unfold finish. set (s5 := if Nat.ltb _ _ then _ else sx).
      assert (H5 : emits good_call s s5 /\ current s5) by (unfold s5; destruct (Nat.ltb _ _); auto). clearbody s5.
      destruct H5 as (Y1 & Y2). destruct b.
      - cbv zeta. set (s6 := tell CUpdate _).
        assert (H6 : emits good_call s s6 /\ current s6).
        { split; [eapply emits_trans; [exact Y1|]; exists [CUpdate]; split; [reflexivity|repeat constructor]|].
          unfold current. cbn. apply tracked_flags; [apply (h_update HH)|exact Y2]. }
        clearbody s6.
        pose proof (loop_inv (fun _ s7 => emits good_call s s7 /\ current s7)
          (fun m s => tell (COut (nl N - 1 - m)) (on_world (l_out N (nl N - 1 - m)) s)) (nl N) 0 s6 H6) as HL.
        match type of HL with ?A -> _ => assert (HA : A) end.
        { intros m a Hma (Z1 & Z2). split; [eapply emits_trans; [exact Z1|]; eexists; split; [reflexivity|repeat constructor]|].
          unfold current. cbn. apply tracked_flags; [apply (h_out HH)|exact Z2]. }
        destruct (HL HA) as (Z1 & Z2). split; [exact Z1|right; exact Z2].
      - set (y := reset_to_major N _). split.
        + eapply emits_trans; [exact Y1|]. apply emits_same. cbn [set_sRebuild save_major set_sMaj sCalls].
          rewrite output_calls, override_calls. reflexivity.
        + right. unfold current. cbn [set_sRebuild save_major set_sMaj sA sWorld].
          rewrite output_A, output_env. destruct (override_A u y) as (-> & ->). exact Y2. }
    destruct (iterate N u (start N s)) as [s4 v|s4 v|s4]; cbn [fst snd flow_state] in *; [| |split; [exact L3|congruence]];
      (destruct (HF s4 (v_net v) L3 L2) as (F1 & F2); split; [exact F1|intros _; exact F2]).
  Qed.

  (** Over any history of NORMAL steps in which only the last may throw. *)
  Theorem run_good us : 1 <= minor_limit N <= decomp_limit N ->
    Forall (fun u => i_mode u = NORMAL /\ i_sor u = false) us ->
    forall s, pending s ->
    (forall a u b, us = a ++ u :: b -> b <> [] -> fst (step N u (run N a s)) <> Thrown) ->
    emits good_call s (run N us s).
  Proof.
    intros Hlim. induction us as [|u us IH]; intros Hu s Hp Hn; [apply emits_same; reflexivity|].
    inversion Hu as [|? ? (Hm & Hs) Hu']; subst. destruct (step_good u s Hm Hs Hlim Hp) as (S1 & S2).
    change (run N (u :: us) s) with (run N us (snd (step N u s))).
    destruct us as [|u' us']; [exact S1|].
    eapply emits_trans; [exact S1|]. apply IH; [exact Hu'| |].
    - apply S2. apply (Hn [] u (u' :: us') eq_refl). discriminate.
    - intros a x b Hx Hb. apply (Hn (u :: a) x b); [rewrite Hx; reflexivity|exact Hb].
  Qed.
End Factor.
