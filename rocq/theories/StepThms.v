(** Solver step: the facts of StepConv carried through the minor-step loop and step. *)
From Coq Require Import Lia List Arith Bool ZArith.
From Verif Require Import Num Loops Ldu Assembly Islands IslandSolve StepModel Spec_Step StepFacts StepBudget StepConv.
Import ListNotations.

Section Thms.
  Context {T : Type} `{NT : Num T} {E : Type}.
  Variable N : net T E.
  Local Notation n := (nn N).
  Local Notation st := (state T E).

  (** ** Rollback (C16) *)

  Lemma solved_linked u k s v m0 :
    is_normal (i_mode u) = true ->
    let s2 := set_cMinor (cMinor s + 1) (set_sLastMinor k s) in
    let s3 := if Nat.ltb (cMaxMinor s2) k then set_cMaxMinor k s2 else s2 in
    let solved := if is_delay (v_res v) then Fine s3
      else
        let s3 := step_links N (i_dt u) k s3 in
        let s4 := if i_worst u then set_sRebuild true s3 else s3 in
        bind (build_and_solve N u s4) (fun s5 => Fine (output N u (override N u s5))) in
    linked N m0 s -> linked N m0 (out_state solved).
  Proof.
    intros Hn s2 s3 solved (H1 & H2).
    assert (H3 : sRecs s3 = sRecs s /\ sMin s3 = sMin s) by (unfold s3; destruct (Nat.ltb _ _); auto).
    destruct H3 as (H3 & H3'). clearbody s3. unfold solved, linked. clear solved.
    destruct (is_delay (v_res v)); [cbn; rewrite H3, H3'; auto|]. cbv zeta.
    set (s5 := step_links N (i_dt u) k s3).
    destruct (core_P _ _ (step_links_core N (i_dt u) k s3)) as (_ & M5 & R5 & _). fold s5 in M5, R5.
    set (s4 := if i_worst u then _ else s5).
    assert (H4 : sRecs s4 = sRecs s /\ sMin s4 = sMin s).
    { unfold s4. rewrite <- H3, <- H3'. destruct (i_worst u); split; assumption. }
    destruct H4 as (H4 & H4'). clearbody s4.
    destruct (build_and_solve_frame N u s4) as (B & M & _).
    assert (B' : sRecs (out_state (build_and_solve N u s4)) = sRecs s).
    { unfold book in B. injection B. intros. congruence. }
    destruct (build_and_solve N u s4) as [s6|s6|s6]; cbn [bind out_state] in *;
      [|rewrite B', M, H4'; auto..].
    destruct (core_P _ _ (output_core N u (override N u s6))) as (_ & Mo & Ro & _). rewrite Mo, Ro.
    pose proof (override_book N u s6) as Bb. pose proof (override_budget N u s6 Hn) as Bc.
    unfold book in Bb. unfold budget in Bc. injection Bb; injection Bc. intros.
    replace (sRecs (override N u s6)) with (sRecs s) by congruence.
    replace (sMin (override N u s6)) with (sMin s) by congruence. auto.
  Qed.

  Lemma body_linked u k s v m0 : is_normal (i_mode u) = true ->
    linked N m0 s -> linked N m0 (flow_state (minor_body N u k s v)).
  Proof.
    intros Hn Hl. pose proof (solved_linked u k s v m0 Hn) as HS. cbv zeta in HS. specialize (HS Hl).
    unfold minor_body. set (solved := if is_delay (v_res v) then _ else _) in *.
    destruct solved as [s5|s5|s5]; cbn [out_state flow_state] in *; [|exact HS..].
    destruct (negb (linear N) && is_normal (i_mode u)); [now apply judge_linked|exact HS].
  Qed.

  Lemma loop_linked u m0 cnt : is_normal (i_mode u) = true -> forall k s v,
    linked N m0 s -> linked N m0 (flow_state (minor_loop N u cnt k s v)).
  Proof.
    intros Hn. induction cnt as [|c IH]; intros k s v Hl; cbn [minor_loop]; [exact Hl|].
    pose proof (body_linked u k s v m0 Hn Hl) as HB.
    destruct (minor_body N u k s v) as [s' v'|s' v'|s']; [now apply IH|exact HB..].
  Qed.

  (** Everything step does after the iteration. *)
  Definition finish (u : input T) (sx : st) (net : bool) : st :=
    let s5 := if Nat.ltb (cMaxDecomp sx) (sLastDecomp sx) then set_cMaxDecomp (sLastDecomp sx) sx else sx in
    let s6 := if net then
            let s := tell CUpdate (on_world (o_update N (i_dt u)) s5) in
            loop (fun m s => let l := nl N - 1 - m in tell (COut l) (on_world (l_out N l) s)) 0 (nl N) s
          else output N u (override N u (reset_to_major N (set_cFail (cFail s5 + 1) s5))) in
    set_sRebuild false (save_major N s6).
  Definition start (s : st) : st :=
    loop (fun i s => tell (CFlows i) (on_world (n_flows N i) s)) 0 (n + 1)
      (loop (fun l s => tell (CIn l) (on_world (l_in N l) s)) 0 (nl N) (set_cMajor (cMajor s + 1) s)).

  Lemma step_eq u s : i_pause u = false ->
    step N u s = match iterate N u (start s) with
                 | Throw s4 => (Thrown, s4)
                 | Go s4 v | Stop s4 v => (Done (v_net v), finish u s4 (v_net v))
                 end.
  Proof. intros Hp. unfold step. rewrite Hp. reflexivity. Qed.

  Lemma start_core s : core (start s) = core (set_cMajor (cMajor s + 1) s).
  Proof. apply in_flows_core. Qed.

  Lemma finish_true_core u sx :
    (sP (finish u sx true), sMin (finish u sx true), sRecs (finish u sx true), cFail (finish u sx true))
    = (sP sx, sMin sx, sRecs sx, cFail sx) /\ sA (finish u sx true) = sA sx.
  Proof.
    unfold finish. set (s5 := if Nat.ltb _ _ then _ else sx).
    assert (H5 : (sP s5, sMin s5, sRecs s5, cFail s5, sA s5) = (sP sx, sMin sx, sRecs sx, cFail sx, sA sx))
      by (unfold s5; destruct (Nat.ltb _ _); reflexivity).
    clearbody s5. set (s6 := tell CUpdate _). set (f := fun (m : nat) (s0 : st) => _).
    assert (HC : core (loop f 0 (nl N) s6) = core s6).
    { apply (loop_pres core). intros. unfold f. cbv zeta. rewrite tell_core by reflexivity. apply on_world_core. }
    set (s7 := loop f 0 (nl N) s6) in *. clearbody s7.
    change ((sP s7, sMin s7, sRecs s7, cFail s7) = (sP sx, sMin sx, sRecs sx, cFail sx) /\ sA s7 = sA sx).
    assert (H6 : core s6 = core s5) by (unfold s6; rewrite tell_core by reflexivity; apply on_world_core). rewrite H6 in HC.
    unfold core in HC. injection HC; injection H5. intros. split; congruence.
  Qed.

  Lemma finish_recs u sx b : sRecs (finish u sx b) = sRecs sx.
  Proof.
    destruct b; [destruct (finish_true_core u sx) as [H _]; injection H; auto|].
    unfold finish. set (s5 := if Nat.ltb _ _ then _ else sx).
    assert (H5 : sRecs s5 = sRecs sx) by (unfold s5; destruct (Nat.ltb _ _); reflexivity).
    set (y := reset_to_major N _). change (sRecs (output N u (override N u y)) = sRecs sx).
    destruct (core_P _ _ (output_core N u (override N u y))) as (_ & _ & R & _). rewrite R.
    pose proof (override_book N u y) as Hb. unfold book in Hb. injection Hb. intros. rewrite <- H5.
    change (sRecs s5) with (sRecs y). assumption.
  Qed.

  Theorem rollback u s : i_pause u = false -> i_mode u = NORMAL ->
    well_chained n (sMin s) (sRecs (snd (step N u s))).
  Proof.
    intros Hp Hm. rewrite step_eq by exact Hp.
    destruct (core_P _ _ (start_core s)) as (_ & M & _ & _). change (sMin (set_cMajor _ s)) with (sMin s) in M.
    assert (HL : linked N (sMin s) (flow_state (iterate N u (start s)))).
    { unfold iterate. apply loop_linked; [now rewrite Hm|]. split.
      - cbn. intros a r b Hx. destruct a; discriminate.
      - cbn. rewrite M. apply same_refl. }
    destruct (iterate N u (start s)) as [s4 v|s4 v|s4]; cbn [flow_state snd] in *; rewrite ?finish_recs; apply HL.
  Qed.

  (** ** Acceptance (C14) *)

  Lemma body_waiting u k s v : i_worst u = false -> i_mode u = NORMAL -> linear N = false ->
    waiting N s v ->
    match minor_body N u k s v with
    | Go s' v' => waiting N s' v'
    | Stop s' v' => v_net v' = true -> accepted N s'
    | Throw _ => True
    end.
  Proof.
    intros Hu Hm Hlin (W1 & W2 & W3). unfold minor_body.
    set (s2 := set_cMinor _ _). set (s3 := if Nat.ltb (cMaxMinor s2) k then _ else s2).
    assert (H3 : (sRecs s3, sP s3, sMin s3) = (sRecs s, sP s, sMin s)) by (unfold s3; destruct (Nat.ltb _ _); reflexivity).
    injection H3. intros M3 P3 R3. clearbody s3. clear H3 s2.
    set (solved := if is_delay (v_res v) then _ else _).
    assert (HS : forall s5, solved = Fine s5 -> v_res v = DELAY -> s5 = s3).
    { unfold solved. intros s5 Hs Hd. rewrite Hd in Hs. cbn in Hs. congruence. }
    destruct solved as [s5|s5|s5]; [|cbn; discriminate|exact I].
    rewrite Hlin, Hm. cbn [negb is_normal andb].
    assert (HJ : judged N (judge N u k s5 v)).
    { apply judge_waiting; [exact Hu|exact W1| |exact W3].
      intros Hd. rewrite (HS s5 eq_refl Hd), R3, P3, M3. now apply W2. }
    destruct (judge N u k s5 v); cbn in HJ; [exact HJ|intros _; apply HJ|exact I].
  Qed.

  Lemma loop_waiting u cnt : i_worst u = false -> i_mode u = NORMAL -> linear N = false ->
    forall k s v, waiting N s v ->
    match minor_loop N u cnt k s v with
    | Go s' v' | Stop s' v' => v_net v' = true -> accepted N s'
    | Throw _ => True
    end.
  Proof.
    intros Hu Hm Hlin. induction cnt as [|c IH]; intros k s v HW; cbn [minor_loop].
    - destruct HW as (W & _). congruence.
    - pose proof (body_waiting u k s v Hu Hm Hlin HW) as HB.
      destruct (minor_body N u k s v) as [s' v'|s' v'|s']; [now apply IH|exact HB|exact I].
  Qed.

  Lemma finish_true_calls u sx :
    exists post, sCalls (finish u sx true) = sCalls sx ++ CUpdate :: post /\
      post = map (fun m => COut (nl N - 1 - m)) (seq 0 (nl N)).
  Proof.
    unfold finish. set (s5 := if Nat.ltb _ _ then _ else sx).
    assert (H5 : sCalls s5 = sCalls sx) by (unfold s5; destruct (Nat.ltb _ _); reflexivity). clearbody s5.
    cbv zeta. cbn [set_sRebuild save_major set_sMaj sCalls].
    rewrite (loop_calls (fun m s => tell (COut (nl N - 1 - m)) (on_world (l_out N (nl N - 1 - m)) s))
       (fun m => [COut (nl N - 1 - m)])) by reflexivity.
    eexists. cbn. rewrite H5, <- app_assoc. split; [reflexivity|].
    induction (seq 0 (nl N)) as [|a l IH]; cbn; [reflexivity|]. now rewrite IH.
  Qed.

  Theorem acceptance u s : i_mode u = NORMAL -> i_worst u = false -> linear N = false ->
    fst (step N u s) = Done true ->
    let s' := snd (step N u s) in
    exists rs r, sRecs s' = rs ++ [r] /\ r_dec r = CONFIRM /\
      (close n (tol N) (r_ref r) (r_P r) \/ (settled n (tol N) rs /\ same_on n (r_P r) (r_ref r))) /\
      same_on n (sP s') (r_P r) /\ 0 < r_conv r /\
      exists before, sCalls s' = before
        ++ map (fun l => CConfirm l (r_conv r) (r_k r) CONFIRM) (nonlinear_links N)
        ++ CUpdate :: map (fun m => COut (nl N - 1 - m)) (seq 0 (nl N)).
  Proof.
    intros Hm Hu Hlin Hdone. cbv zeta.
    assert (Hp : i_pause u = false) by (unfold step in Hdone; destruct (i_pause u); [discriminate|reflexivity]).
    rewrite step_eq in * by exact Hp.
    assert (HW : waiting N (set_sRecs [] (set_sLastDecomp 0 (start s))) (mklocal CONFIRM 0 (linear N || negb (is_normal (i_mode u))))).
    { rewrite Hlin, Hm. split; [reflexivity|]. split; [discriminate|reflexivity]. }
    pose proof (loop_waiting u (if linear N || negb (is_normal (i_mode u)) then 1 else minor_limit N) Hu Hm Hlin 1 _ _ HW) as HL.
    change (minor_loop N u (if linear N || negb (is_normal (i_mode u)) then 1 else minor_limit N) 1
      (set_sRecs [] (set_sLastDecomp 0 (start s))) (mklocal CONFIRM 0 (linear N || negb (is_normal (i_mode u)))))
      with (iterate N u (start s)) in HL.
    assert (Hacc : forall s4, accepted N s4 ->
      exists rs r, sRecs (finish u s4 true) = rs ++ [r] /\ r_dec r = CONFIRM /\
      (close n (tol N) (r_ref r) (r_P r) \/ (settled n (tol N) rs /\ same_on n (r_P r) (r_ref r))) /\
      same_on n (sP (finish u s4 true)) (r_P r) /\ 0 < r_conv r /\
      exists before, sCalls (finish u s4 true) = before
        ++ map (fun l => CConfirm l (r_conv r) (r_k r) CONFIRM) (nonlinear_links N)
        ++ CUpdate :: map (fun m => COut (nl N - 1 - m)) (seq 0 (nl N))).
    { intros s4 (rs & r & A1 & A2 & A3 & A4 & A5 & A6 & cs & A7).
      destruct (finish_true_core u s4) as (F & _).
      pose proof (finish_recs u s4 true) as F1. pose proof (f_equal (fun t => fst (fst (fst t))) F) as F3. cbn [fst] in F3.
      exists rs, r. rewrite F1, F3. repeat split; auto.
      destruct (finish_true_calls u s4) as (post & P1 & ->). exists cs. rewrite P1, A7, <- app_assoc. reflexivity. }
    destruct (iterate N u (start s)) as [s4 v|s4 v|s4]; cbn [fst snd] in *; [| |discriminate];
      (injection Hdone; intros Hv; rewrite Hv in *; apply Hacc; apply HL; reflexivity).
  Qed.

  (** ** Failure (C17) *)

  Lemma override_link_spec l s :
    let s' := override_link N l s in
    sWorld s' = sWorld s /\
    (forall i, (sP s' i = sP s i /\ (forall p, p < l_ports N l -> l_over N l (w_env (sWorld s)) p = true ->
                   l_nodes N l (w_env (sWorld s)) p < n -> l_nodes N l (w_env (sWorld s)) p <> i)) \/
      (i < n /\ exists p, p < l_ports N l /\ l_over N l (w_env (sWorld s)) p = true /\
         l_nodes N l (w_env (sWorld s)) p = i /\ sP s' i = w_lpot (sWorld s) l p)).
  Proof.
    cbv zeta. unfold override_link. set (f := fun (p : nat) (s0 : st) => _).
    pose proof (loop_inv (fun m s' => sWorld s' = sWorld s /\
    (forall i, (sP s' i = sP s i /\ (forall p, p < m -> l_over N l (w_env (sWorld s)) p = true ->
                   l_nodes N l (w_env (sWorld s)) p < n -> l_nodes N l (w_env (sWorld s)) p <> i)) \/
      (i < n /\ exists p, p < m /\ l_over N l (w_env (sWorld s)) p = true /\
         l_nodes N l (w_env (sWorld s)) p = i /\ sP s' i = w_lpot (sWorld s) l p))) f (l_ports N l) 0 s) as HL.
    apply HL; clear HL.
    - split; [reflexivity|]. intros i. left. split; [reflexivity|]. intros; lia.
    - intros p s' Hp (W & H). unfold f. rewrite W.
      destruct (l_over N l (w_env (sWorld s)) p && Nat.ltb (l_nodes N l (w_env (sWorld s)) p) n) eqn:Hb.
      + apply andb_prop in Hb. destruct Hb as [Hb1 Hb2]. apply Nat.ltb_lt in Hb2.
        split; [exact W|]. intros i. cbn [set_sP sP].
        destruct (Nat.eq_dec i (l_nodes N l (w_env (sWorld s)) p)) as [->|Hne].
        * right. split; [exact Hb2|]. exists p. rewrite updv_eq. repeat split; auto.
        * rewrite updv_neq by exact Hne. destruct (H i) as [(H1 & H2)|(H1 & q & H2 & H3)].
          -- left. split; [exact H1|]. intros q Hq Ho Hn. destruct (Nat.eq_dec q p) as [->|]; [auto|]. apply H2; auto; lia.
          -- right. split; [exact H1|]. exists q. split; [lia|exact H3].
      + split; [exact W|]. intros i. destruct (H i) as [(H1 & H2)|(H1 & q & H2 & H3)].
        * left. split; [exact H1|]. intros q Hq Ho Hn. destruct (Nat.eq_dec q p) as [->|]; [|apply H2; auto; lia].
          rewrite Ho in Hb. cbn in Hb. apply Nat.ltb_ge in Hb. lia.
        * right. split; [exact H1|]. exists q. split; [lia|exact H3].
  Qed.

  Lemma override_spec u s : i_mode u = NORMAL ->
    let s' := override N u s in
    let e := w_env (sWorld s) in
    sWorld s' = sWorld s /\
    (forall i, (sP s' i = sP s i /\ (forall l p, l < nl N -> p < l_ports N l -> l_over N l e p = true ->
                   l_nodes N l e p < n -> l_nodes N l e p <> i)) \/
      (i < n /\ exists l p, l < nl N /\ p < l_ports N l /\ l_over N l e p = true /\
         l_nodes N l e p = i /\ sP s' i = w_lpot (sWorld s) l p)).
  Proof.
    intros Hm. cbv zeta. unfold override. rewrite Hm.
    pose proof (loop_inv (fun m s' => sWorld s' = sWorld s /\
    (forall i, (sP s' i = sP s i /\ (forall l p, l < m -> p < l_ports N l -> l_over N l (w_env (sWorld s)) p = true ->
                   l_nodes N l (w_env (sWorld s)) p < n -> l_nodes N l (w_env (sWorld s)) p <> i)) \/
      (i < n /\ exists l p, l < m /\ p < l_ports N l /\ l_over N l (w_env (sWorld s)) p = true /\
         l_nodes N l (w_env (sWorld s)) p = i /\ sP s' i = w_lpot (sWorld s) l p))) (override_link N) (nl N) 0 s) as HL.
    apply HL; clear HL.
    - split; [reflexivity|]. intros i. left. split; [reflexivity|]. intros; lia.
    - intros l s' Hl (W & H). destruct (override_link_spec l s') as (W' & H'). rewrite W in *.
      split; [exact W'|]. intros i. destruct (H' i) as [(A1 & A2)|(A1 & p & A2 & A3 & A4 & A5)].
      + rewrite A1. destruct (H i) as [(B1 & B2)|(B1 & l' & p' & B2 & B3)].
        * left. split; [exact B1|]. intros l' p' Hl' Hp' Ho Hn. destruct (Nat.eq_dec l' l) as [->|]; [now apply A2|].
          apply B2; auto; lia.
        * right. split; [exact B1|]. exists l', p'. split; [lia|exact B3].
      + right. split; [exact A1|]. exists l, p. repeat split; auto.
  Qed.

  Lemma output_env u s : w_env (sWorld (output N u s)) = w_env (sWorld s).
  Proof.
    unfold output. assert (H : w_env (loop (output_link N (sP s)) 0 (nl N) (output_nodes N (sP s) (sWorld s))) = w_env (sWorld s)).
    { rewrite (loop_pres (@w_env T E)).
      - unfold output_nodes. cbn. apply (loop_pres (@w_env T E)). reflexivity.
      - intros l w. unfold output_link. apply (loop_pres (@w_env T E)). reflexivity. }
    destruct (i_mode u); [exact H|reflexivity|exact H].
  Qed.

  (** A failing step can only happen in NORMAL mode. *)
  Lemma loop_not_normal u cnt : is_normal (i_mode u) = false -> forall k s v, v_net v = true ->
    match minor_loop N u cnt k s v with Go _ v' | Stop _ v' => v_net v' = true | Throw _ => True end.
  Proof.
    intros Hm. induction cnt as [|c IH]; intros k s v Hv; cbn [minor_loop]; [exact Hv|].
    unfold minor_body. set (s2 := set_cMinor _ _). set (s3 := if Nat.ltb (cMaxMinor s2) k then _ else s2).
    assert (HB : forall s4, match build_and_solve N u s4 with Limit _ => False | _ => True end).
    { intros s4. unfold build_and_solve. rewrite Hm, !andb_false_r. cbn [Z.ltb Z.compare bind]. exact I. }
    set (solved := if is_delay (v_res v) then _ else _).
    assert (HS : match solved with Limit _ => False | _ => True end).
    { unfold solved. destruct (is_delay (v_res v)); [exact I|]. cbv zeta.
      match goal with |- context [build_and_solve N u ?x] => specialize (HB x); destruct (build_and_solve N u x) end; cbn; auto. }
    destruct solved as [s5|s5|s5]; [|contradiction|exact I].
    rewrite Hm, andb_false_r. now apply IH.
  Qed.

  Theorem failure u s :
    fst (step N u s) = Done false ->
    let s' := snd (step N u s) in
    let e := w_env (sWorld s') in
    i_mode u = NORMAL /\
    (forall i, i < n -> 
       (forall l p, l < nl N -> p < l_ports N l -> l_over N l e p = true -> l_nodes N l e p <> i) ->
       sP s' i = sMaj s i) /\
    same_on n (sMaj s') (sP s') /\
    cFail s' = cFail s + 1 /\
    exists tr, sCalls s' = sCalls s ++ tr /\ Forall (fun c => is_flow c = false) tr.
  Proof.
    intros Hd. cbv zeta.
    assert (Hp : i_pause u = false) by (unfold step in Hd; destruct (i_pause u); [discriminate|reflexivity]).
    rewrite step_eq in * by exact Hp.
    assert (Hm : i_mode u = NORMAL).
    { pose proof (loop_not_normal u (if linear N || negb (is_normal (i_mode u)) then 1 else minor_limit N)) as HN.
      destruct (is_normal (i_mode u)) eqn:Hm; [destruct (i_mode u); [reflexivity|discriminate..]|].
      exfalso. specialize (HN eq_refl 1 (set_sRecs [] (set_sLastDecomp 0 (start s))) (mklocal CONFIRM 0 (linear N || negb false))).
      rewrite orb_true_r in HN. specialize (HN eq_refl). unfold iterate in Hd. rewrite Hm in Hd. rewrite orb_true_r in Hd.
      cbn [negb] in *. 
      destruct (minor_loop N u 1 1 _ _) as [s4 v|s4 v|s4]; cbn [fst] in Hd; try discriminate;
        injection Hd; intros; congruence. }
    split; [exact Hm|].
    (* the iteration *)
    set (s0 := set_sRecs [] (set_sLastDecomp 0 (start s))).
    assert (W0 : within N (cDecomp s0) (count is_decomp (sCalls s0)) s0).
    { unfold within. cbn. repeat split; lia. }
    pose proof (minor_loop_budget N u (if linear N || negb (is_normal (i_mode u)) then 1 else minor_limit N) 1 s0
        (mklocal CONFIRM 0 (linear N || negb (is_normal (i_mode u)))) _ _ W0 (le_n 1)) as HB.
    change (minor_loop N u (if linear N || negb (is_normal (i_mode u)) then 1 else minor_limit N) 1 s0
        (mklocal CONFIRM 0 (linear N || negb (is_normal (i_mode u))))) with (iterate N u (start s)) in HB.
    destruct HB as (_ & _ & J & tr & E1 & F1 & _).
    assert (J0 : sMaj s0 = sMaj s /\ cFail s0 = cFail s).
    { pose proof (start_core s) as C. unfold core in C. injection C. intros; split; assumption. }
    assert (E0 : exists tr0, sCalls s0 = sCalls s ++ tr0 /\ Forall (fun c => is_flow c = false) tr0).
    { destruct (in_flows_calls N (set_cMajor (cMajor s + 1) s)) as (tr0 & X & Y). exists tr0. split; [exact X|].
      eapply Forall_impl; [|exact Y]. intros []; cbn; tauto. }
    assert (HF : forall sx, sMaj sx = sMaj s -> cFail sx = cFail s ->
       (exists tr, sCalls sx = sCalls s ++ tr /\ Forall (fun c => is_flow c = false) tr) ->
       let s' := finish u sx false in
       (forall i, i < n -> 
         (forall l p, l < nl N -> p < l_ports N l -> l_over N l (w_env (sWorld s')) p = true -> l_nodes N l (w_env (sWorld s')) p <> i) ->
         sP s' i = sMaj s i) /\
       same_on n (sMaj s') (sP s') /\ cFail s' = cFail s + 1 /\
       exists tr, sCalls s' = sCalls s ++ tr /\ Forall (fun c => is_flow c = false) tr).
    { intros sx X1 X2 X3 s'. unfold s', finish. set (s5 := if Nat.ltb _ _ then _ else sx).
      assert (H5 : (sMaj s5, cFail s5, sCalls s5) = (sMaj sx, cFail sx, sCalls sx))
        by (unfold s5; destruct (Nat.ltb _ _); reflexivity).
      injection H5. intros H5a H5b H5c. clearbody s5. clear H5 s'.
      set (y := reset_to_major N (set_cFail (cFail s5 + 1) s5)).
      set (z := override N u y). set (o := output N u z).
      destruct (core_P _ _ (output_core N u z)) as (P1 & _ & _ & M1). fold o in P1, M1.
      change (sP (set_sRebuild false (save_major N o))) with (sP o).
      change (sWorld (set_sRebuild false (save_major N o))) with (sWorld o).
      split; [|split; [|split]].
      - intros i Hi Ho. rewrite P1. unfold o in Ho. rewrite output_env in Ho.
        destruct (override_spec u y Hm) as (W & HO). fold z in W, HO. rewrite W in Ho.
        destruct (HO i) as [(A & _)|(_ & l & p & B1 & B2 & B3 & B4 & _)].
        + rewrite A. unfold y. cbn. rewrite copy_vec_in by exact Hi. cbn. now rewrite H5c, X1.
        + exfalso. exact (Ho l p B1 B2 B3 B4).
      - cbn. apply same_copy.
      - change (cFail (set_sRebuild false (save_major N o))) with (cFail o).
        pose proof (core_book _ _ (output_core N u z)) as B. fold o in B. unfold z in B. rewrite override_book in B.
        unfold book in B. injection B. intros Bf _ _ _ _ _ _ _. rewrite Bf. unfold y. cbn. now rewrite H5b, X2.
      - change (sCalls (set_sRebuild false (save_major N o))) with (sCalls o). unfold o, z.
        rewrite output_calls, override_calls. unfold y. cbn. rewrite H5a. exact X3. }
    assert (HT : exists tr, sCalls (flow_state (iterate N u (start s))) = sCalls s ++ tr /\ Forall (fun c => is_flow c = false) tr).
    { destruct E0 as (tr0 & X & Y). exists (tr0 ++ tr). rewrite E1, X, app_assoc. split; [reflexivity|]. apply Forall_app; auto. }
    injection J. intros J3 _ J1. destruct J0 as (J0 & J0').
    destruct (iterate N u (start s)) as [s4 v|s4 v|s4]; cbn [fst snd flow_state] in *; [| |discriminate];
      (injection Hd; intros Hv; rewrite Hv in *; apply HF; [congruence|congruence|exact HT]).
  Qed.

  (** Convergence leaves the failure count alone, and every returning step
      saves its potentials for the next one. *)
  Theorem returned_saves u s b : fst (step N u s) = Done b ->
    same_on n (sMaj (snd (step N u s))) (sP (snd (step N u s))).
  Proof.
    intros Hd. assert (Hp : i_pause u = false) by (unfold step in Hd; destruct (i_pause u); [discriminate|reflexivity]).
    rewrite step_eq in * by exact Hp.
    assert (HF : forall sx c, same_on n (sMaj (finish u sx c)) (sP (finish u sx c))).
    { intros. unfold finish. cbn [set_sRebuild save_major set_sMaj sMaj sP]. apply same_copy. }
    destruct (iterate N u (start s)); cbn [fst snd] in *; auto. discriminate.
  Qed.

  (** ** Output (C19, C22) *)

  (** Nodes and link ports show the solver's potentials, ground shows zero. *)
  Definition shows (P : nat -> T) (w : world T E) : Prop :=
    (forall i, i < n -> w_pot w i = P i) /\ w_pot w n = n0 /\
    forall l p, l < nl N -> p < l_ports N l ->
      w_lpot w l p = if Nat.ltb (l_nodes N l (w_env w) p) n then P (l_nodes N l (w_env w) p) else n0.

  Lemma output_nodes_spec P w :
    let w' := output_nodes N P w in
    (forall i, i < n -> w_pot w' i = P i) /\ w_pot w' n = n0 /\ w_env w' = w_env w /\ w_lpot w' = w_lpot w.
  Proof.
    cbv zeta. unfold output_nodes. set (f := fun (i : nat) (w0 : world T E) => _).
    assert (HI : (forall i, i < n -> w_pot (loop f 0 n w) i = P i) /\ w_env (loop f 0 n w) = w_env w /\ w_lpot (loop f 0 n w) = w_lpot w).
    { pose proof (loop_inv (fun m w' => (forall i, i < m -> w_pot w' i = P i) /\ w_env w' = w_env w /\ w_lpot w' = w_lpot w) f n 0 w) as HL.
      apply HL; [split; [intros; lia|auto]|]. intros j w' Hj (A & B & C). unfold f. cbn. split; [|auto].
      intros i Hi. destruct (Nat.eq_dec i j) as [->|]; [apply updv_eq|]. rewrite updv_neq by assumption. apply A. lia. }
    set (w1 := loop f 0 n w) in *. clearbody w1. destruct HI as (A & B & C). cbn. split; [|split; [apply updv_eq|auto]].
    intros i Hi. rewrite updv_neq by lia. now apply A.
  Qed.

  Lemma output_link_spec P l w :
    let w' := output_link N P l w in
    w_env w' = w_env w /\ w_pot w' = w_pot w /\
    (forall p, p < l_ports N l -> w_lpot w' l p = if Nat.ltb (l_nodes N l (w_env w) p) n then P (l_nodes N l (w_env w) p) else n0) /\
    (forall l' p, l' <> l -> w_lpot w' l' p = w_lpot w l' p).
  Proof.
    cbv zeta. unfold output_link. set (f := fun (p : nat) (w0 : world T E) => _).
    pose proof (loop_inv (fun m w' => w_env w' = w_env w /\ w_pot w' = w_pot w /\
    (forall p, p < m -> w_lpot w' l p = if Nat.ltb (l_nodes N l (w_env w) p) n then P (l_nodes N l (w_env w) p) else n0) /\
    (forall l' p, l' <> l -> w_lpot w' l' p = w_lpot w l' p)) f (l_ports N l) 0 w) as HL.
    apply HL; clear HL; [repeat split; auto; intros; lia|].
    intros p w' Hp (A & B & C & D). unfold f. cbn. rewrite A. split; [reflexivity|]. split; [exact B|]. split.
    - intros q Hq. destruct (Nat.eq_dec q p) as [->|]; [apply upd_eq|]. rewrite upd_neq by auto. apply C. lia.
    - intros l' q Hl'. rewrite upd_neq by auto. now apply D.
  Qed.

  Lemma output_shows u s : i_mode u <> DUMMY -> shows (sP (output N u s)) (sWorld (output N u s)).
  Proof.
    intros Hm.
    assert (H : output N u s = on_world (fun w => loop (output_link N (sP s)) 0 (nl N) (output_nodes N (sP s) w)) s)
      by (unfold output; destruct (i_mode u); congruence).
    rewrite H. clear H. cbn [on_world set_sWorld sP sWorld].
    destruct (output_nodes_spec (sP s) (sWorld s)) as (A & B & C & D).
    set (w0 := output_nodes N (sP s) (sWorld s)) in *. clearbody w0.
    pose proof (loop_inv (fun m w' => w_env w' = w_env w0 /\ w_pot w' = w_pot w0 /\
      forall l p, l < m -> p < l_ports N l ->
      w_lpot w' l p = if Nat.ltb (l_nodes N l (w_env w0) p) n then sP s (l_nodes N l (w_env w0) p) else n0)
      (output_link N (sP s)) (nl N) 0 w0) as HL.
    destruct HL as (X & Y & Z).
    - repeat split; auto. intros; lia.
    - intros l w' Hl (X & Y & Z). destruct (output_link_spec (sP s) l w') as (X' & Y' & Z' & V'). rewrite X in *.
      split; [exact X'|]. split; [congruence|]. intros l' p Hl' Hp'.
      destruct (Nat.eq_dec l' l) as [->|]; [now apply Z'|]. rewrite V' by assumption. apply Z; [lia|assumption].
    - split; [intros i Hi; rewrite Y; now apply A|]. split; [now rewrite Y|]. intros l p Hl Hp. rewrite X. now apply Z.
  Qed.

  (** A callback that leaves potentials and node maps alone. *)
  Definition quiet (f : world T E -> world T E) : Prop :=
    forall w, w_pot (f w) = w_pot w /\ w_lpot (f w) = w_lpot w /\
      forall l p, l < nl N -> p < l_ports N l -> l_nodes N l (w_env (f w)) p = l_nodes N l (w_env w) p.
  Lemma quiet_shows f P w : quiet f -> shows P w -> shows P (f w).
  Proof.
    intros Hq (A & B & C). destruct (Hq w) as (X & Y & Z). split; [intros i Hi; rewrite X; now apply A|].
    split; [now rewrite X|]. intros l p Hl Hp. rewrite Y, Z by assumption. now apply C.
  Qed.
  Lemma shows_ext P P' w : same_on n P P' -> shows P w -> shows P' w.
  Proof.
    intros HE (A & B & C). split; [intros i Hi; rewrite <- HE by assumption; now apply A|]. split; [exact B|].
    intros l p Hl Hp. rewrite C by assumption.
    destruct (Nat.ltb_spec (l_nodes N l (w_env w) p) n); [now apply HE|reflexivity].
  Qed.

  (** The callbacks made after the solution is output. *)
  Definition quiet_after : Prop :=
    (forall l c k, l < nl N -> quiet (fun w => snd (l_confirm N l c k w))) /\
    (forall l c k, l < nl N -> quiet (fun w => snd (l_reset N l c k w))) /\
    (forall l, l < nl N -> quiet (l_out N l)) /\ (forall dt, quiet (o_update N dt)).

  Definition agrees (s : st) : Prop := shows (sP s) (sWorld s).

  Lemma confirm_agrees c k s : quiet_after -> agrees s -> agrees (snd (confirm N c k s)).
  Proof.
    intros (Q & _) Ha. unfold agrees.
    destruct (core_P _ _ (confirm_core N c k s)) as (P & _). rewrite P. unfold confirm.
    pose proof (loop_inv (fun _ a => shows (sP s) (sWorld (snd a))) (confirm_link N c k) (nl N) 0 (CONFIRM, s) Ha) as HL.
    apply HL. intros l a Hl IH. unfold confirm_link. destruct (l_nonlin N l); [|exact IH].
    pose proof (quiet_shows _ (sP s) (sWorld (snd a)) (Q l c k ltac:(lia)) IH) as Hq. cbn in Hq.
    destruct (l_confirm N l c k (sWorld (snd a))) as [d w]. exact Hq.
  Qed.
  Lemma reset_agrees c k s : quiet_after -> agrees s -> agrees (reset_links N c k s).
  Proof.
    intros (_ & Q & _) Ha. unfold agrees.
    destruct (core_P _ _ (reset_links_core N c k s)) as (P & _). rewrite P. unfold reset_links.
    pose proof (loop_inv (fun _ a => shows (sP s) (sWorld a)) (reset_link N c k) (nl N) 0 s Ha) as HL.
    apply HL. intros l a Hl IH. unfold reset_link. destruct (l_nonlin N l); [|exact IH].
    pose proof (quiet_shows _ (sP s) (sWorld a) (Q l c k ltac:(lia)) IH) as Hq. cbn in Hq.
    destruct (l_reset N l c k (sWorld a)) as [[|] w]; exact Hq.
  Qed.

  Lemma judge_agrees u k s v : quiet_after -> i_mode u <> DUMMY -> agrees s ->
    agrees (flow_state (judge N u k s v)).
  Proof.
    intros HQ Hm Ha. unfold judge. set (p := if is_delay (v_res v) then _ else _).
    assert (Hp : agrees (snd p)).
    { unfold p. destruct (is_delay (v_res v)); [exact Ha|]. unfold check_convergence. destruct (loop _ _ _ _). exact Ha. }
    destruct p as [ok s1]. cbn [snd] in Hp. set (c := if ok then _ else _).
    pose proof (confirm_agrees c k s1 HQ Hp) as Hc. destruct (confirm N c k s1) as [d s2]. cbn [snd] in Hc.
    destruct (is_reject d).
    - cbn [flow_state]. change (agrees (reset_links N c k (output N u (reset_to_minor N s2)))). apply reset_agrees; [exact HQ|]. unfold agrees. now apply output_shows.
    - destruct (is_confirm d && Nat.ltb 0 c); [|exact Hc]. destruct (negb (i_worst u) || _); exact Hc.
  Qed.

  (** After a minor step that was neither aborted nor thrown, potentials agree. *)
  Lemma body_agrees u k s v : quiet_after -> i_mode u <> DUMMY -> (v_res v = DELAY -> agrees s) ->
    match minor_body N u k s v with
    | Go s' _ => agrees s'
    | Stop s' v' => v_net v' = true -> agrees s'
    | Throw _ => True
    end.
  Proof.
    intros HQ Hm Ha. unfold minor_body.
    set (s2 := set_cMinor _ _). set (s3 := if Nat.ltb (cMaxMinor s2) k then _ else s2).
    assert (H3 : v_res v = DELAY -> agrees s3) by (unfold s3; destruct (Nat.ltb _ _); exact Ha).
    clearbody s3. clear s2.
    set (solved := if is_delay (v_res v) then _ else _).
    assert (HS : forall s5, solved = Fine s5 -> agrees s5).
    { unfold solved. intros s5 Hs. destruct (v_res v); cbn [is_delay] in Hs; cbv zeta in Hs;
        try (destruct (build_and_solve N u _) as [s6|s6|s6]; cbn [bind] in Hs; try discriminate;
             injection Hs; intros <-; now apply output_shows).
      injection Hs; intros <-. now apply H3. }
    destruct solved as [s5|s5|s5]; [|cbn; discriminate|exact I].
    specialize (HS s5 eq_refl).
    destruct (negb (linear N) && is_normal (i_mode u)); [|exact HS].
    pose proof (judge_agrees u k s5 v HQ Hm HS) as HJ.
    destruct (judge N u k s5 v); cbn in HJ; auto.
  Qed.

  Lemma loop_agrees u cnt : quiet_after -> i_mode u <> DUMMY -> forall k s v,
    (v_res v = DELAY -> agrees s) ->
    (v_net v = true -> 1 <= cnt \/ agrees s) ->
    match minor_loop N u cnt k s v with
    | Go s' v' | Stop s' v' => v_net v' = true -> agrees s'
    | Throw _ => True
    end.
  Proof.
    intros HQ Hm. induction cnt as [|c IH]; intros k s v Hd Hn; cbn [minor_loop].
    - intros H. destruct (Hn H); [lia|assumption].
    - pose proof (body_agrees u k s v HQ Hm Hd) as HB.
      destruct (minor_body N u k s v) as [s' v'|s' v'|s']; [|exact HB|exact I].
      apply IH; auto.
  Qed.

  Theorem potentials_agree u s b : quiet_after -> i_mode u <> DUMMY -> 1 <= minor_limit N ->
    fst (step N u s) = Done b -> agrees (snd (step N u s)).
  Proof.
    intros HQ Hm Hlim Hd.
    assert (Hp : i_pause u = false) by (unfold step in Hd; destruct (i_pause u); [discriminate|reflexivity]).
    rewrite step_eq in * by exact Hp.
    assert (HL := loop_agrees u (if linear N || negb (is_normal (i_mode u)) then 1 else minor_limit N) HQ Hm 1
      (set_sRecs [] (set_sLastDecomp 0 (start s))) (mklocal CONFIRM 0 (linear N || negb (is_normal (i_mode u))))
      ltac:(discriminate) ltac:(intros _; left; destruct (linear N || _); lia)).
    change (minor_loop N u (if linear N || negb (is_normal (i_mode u)) then 1 else minor_limit N) 1
      (set_sRecs [] (set_sLastDecomp 0 (start s))) (mklocal CONFIRM 0 (linear N || negb (is_normal (i_mode u)))))
      with (iterate N u (start s)) in HL.
    assert (HF : forall sx c, (c = true -> agrees sx) -> agrees (finish u sx c)).
    { intros sx c Hc. unfold finish. set (s5 := if Nat.ltb _ _ then _ else sx).
      assert (H5 : c = true -> agrees s5) by (unfold s5; destruct (Nat.ltb _ _); exact Hc). clearbody s5.
      destruct c.
      - cbv zeta. specialize (H5 eq_refl). destruct HQ as (_ & _ & Q3 & Q4).
        assert (H6 : agrees (tell CUpdate (on_world (o_update N (i_dt u)) s5))).
        { unfold agrees. cbn. apply quiet_shows; [apply Q4|exact H5]. }
        set (s6 := tell CUpdate _) in *. clearbody s6.
        change (agrees (loop (fun m s => tell (COut (nl N - 1 - m)) (on_world (l_out N (nl N - 1 - m)) s)) 0 (nl N) s6)).
        pose proof (loop_inv (fun _ s => agrees s)
          (fun m s => tell (COut (nl N - 1 - m)) (on_world (l_out N (nl N - 1 - m)) s)) (nl N) 0 s6 H6) as HI.
        apply HI. intros m a Hma Ha. unfold agrees. cbn. apply quiet_shows; [apply Q3; lia|exact Ha].
      - unfold agrees. cbn [set_sRebuild save_major set_sMaj sP sWorld]. now apply output_shows. }
    destruct (iterate N u (start s)) as [s4 v|s4 v|s4]; cbn [fst snd] in *; [now apply HF..|discriminate].
  Qed.

  (** At the moment a minor step's potentials are handed out, nodes and links
      agree with the solver, whatever the links do. *)
  Lemma rejected_output u k s v s' v' :
    i_mode u <> DUMMY -> judge N u k s v = Go s' v' -> v_res v' = REJECT ->
    exists a r, sRecs s' = a ++ [r] /\ r_dec r = REJECT /\ shows (r_after r) (r_world r).
  Proof.
    intros Hm. unfold judge. destruct (if is_delay (v_res v) then _ else _) as [ok s1].
    set (c := if ok then _ else _). destruct (confirm N c k s1) as [d s2].
    destruct (is_reject d) eqn:Hd.
    - intros Hj Hr. injection Hj. intros <- <-. cbn [v_res] in Hr. subst d.
      eexists _, _. split; [reflexivity|]. split; [reflexivity|]. cbn [r_after r_world].
      destruct (core_P _ _ (reset_links_core N c k (output N u (reset_to_minor N s2)))) as (P & _). rewrite P.
      now apply output_shows.
    - intros Hj Hr. exfalso. destruct (is_confirm d && Nat.ltb 0 c); [destruct (negb (i_worst u) || _)|]; try discriminate;
        injection Hj; intros <- _; cbn [v_res] in Hr; subst d; discriminate.
  Qed.

  (** Every rejected minor step of a major step handed the rolled back
      potentials to nodes and links. *)
  Definition shown_back (r : @mrec T E) : Prop := r_dec r = REJECT -> shows (r_after r) (r_world r).

  Lemma judge_shown u k s v : i_mode u <> DUMMY -> Forall shown_back (sRecs s) ->
    Forall shown_back (sRecs (flow_state (judge N u k s v))).
  Proof.
    intros Hm Hs. unfold judge. set (p := if is_delay (v_res v) then _ else _).
    assert (Hp : sRecs (snd p) = sRecs s).
    { unfold p. destruct (is_delay (v_res v)); [reflexivity|]. unfold check_convergence. destruct (loop _ _ _ _). reflexivity. }
    destruct p as [ok s1]. cbn [snd] in Hp. set (c := if ok then _ else _).
    destruct (core_P _ _ (confirm_core N c k s1)) as (_ & _ & Hc & _).
    destruct (confirm N c k s1) as [d s2]. cbn [snd] in Hc.
    destruct (is_reject d) eqn:Hd.
    - cbn [flow_state set_sRecs sRecs].
      destruct (core_P _ _ (reset_links_core N c k (output N u (reset_to_minor N s2)))) as (P & _ & R & _).
      destruct (core_P _ _ (output_core N u (reset_to_minor N s2))) as (_ & _ & R' & _).
      rewrite R, R'. change (sRecs (reset_to_minor N s2)) with (sRecs s2). rewrite Hc, Hp.
      apply Forall_app. split; [exact Hs|]. constructor; [|constructor]. intros _. cbn [r_after r_world]. rewrite P.
      now apply output_shows.
    - assert (HX : Forall shown_back (sRecs (save_minor N s2) ++
        [mkrec k (sP s) (sMin s) c d (sP (save_minor N s2)) (sWorld s)])).
      { change (sRecs (save_minor N s2)) with (sRecs s2). rewrite Hc, Hp. apply Forall_app. split; [exact Hs|].
        constructor; [|constructor]. intros Hr. cbn in Hr. subst d. discriminate. }
      destruct (is_confirm d && Nat.ltb 0 c); [destruct (negb (i_worst u) || _)|]; exact HX.
  Qed.

  Lemma loop_shown u cnt : i_mode u = NORMAL -> forall k s v, Forall shown_back (sRecs s) ->
    Forall shown_back (sRecs (flow_state (minor_loop N u cnt k s v))).
  Proof.
    intros Hm. induction cnt as [|c IH]; intros k s v Hs; cbn [minor_loop]; [exact Hs|].
    assert (HB : Forall shown_back (sRecs (flow_state (minor_body N u k s v)))).
    { assert (HS : Forall shown_back (sRecs (out_state (
        if is_delay (v_res v) then
          Fine (let s1 := set_cMinor (cMinor s + 1) (set_sLastMinor k s) in if Nat.ltb (cMaxMinor s1) k then set_cMaxMinor k s1 else s1)
        else bind (build_and_solve N u (let s3 := step_links N (i_dt u) k
              (let s1 := set_cMinor (cMinor s + 1) (set_sLastMinor k s) in if Nat.ltb (cMaxMinor s1) k then set_cMaxMinor k s1 else s1) in
              if i_worst u then set_sRebuild true s3 else s3)) (fun s5 => Fine (output N u (override N u s5))))))).
      { set (s3 := let s1 := _ in if Nat.ltb (cMaxMinor s1) k then _ else s1).
        assert (H3 : sRecs s3 = sRecs s) by (unfold s3; cbv zeta; destruct (Nat.ltb _ _); reflexivity). clearbody s3.
        destruct (is_delay (v_res v)); [cbn; now rewrite H3|]. cbv zeta.
        destruct (core_P _ _ (step_links_core N (i_dt u) k s3)) as (_ & _ & R3 & _).
        set (s4 := if i_worst u then _ else _).
        assert (H4 : sRecs s4 = sRecs s) by (unfold s4; rewrite <- H3, <- R3; destruct (i_worst u); reflexivity). clearbody s4.
        destruct (build_and_solve_frame N u s4) as (B & _).
        assert (B' : sRecs (out_state (build_and_solve N u s4)) = sRecs s) by (unfold book in B; injection B; intros; congruence).
        destruct (build_and_solve N u s4) as [s6|s6|s6]; cbn [bind out_state] in *; [|now rewrite B'..].
        destruct (core_P _ _ (output_core N u (override N u s6))) as (_ & _ & Ro & _). rewrite Ro.
        pose proof (override_book N u s6) as Bb. unfold book in Bb. injection Bb. intros.
        replace (sRecs (override N u s6)) with (sRecs s) by congruence. exact Hs. }
      unfold minor_body. cbv zeta in HS |- *. 
      match type of HS with context [out_state ?x] => set (solved := x) in *; change x with solved end.
      destruct solved as [s5|s5|s5]; cbn [out_state flow_state] in *; [|exact HS..].
      destruct (negb (linear N) && is_normal (i_mode u)); [|exact HS]. apply judge_shown; [congruence|exact HS]. }
    destruct (minor_body N u k s v) as [s' v'|s' v'|s']; [now apply IH|exact HB..].
  Qed.

  Theorem rejected_shown u s : i_pause u = false -> i_mode u = NORMAL ->
    Forall shown_back (sRecs (snd (step N u s))).
  Proof.
    intros Hp Hm. rewrite step_eq by exact Hp.
    assert (HL : Forall shown_back (sRecs (flow_state (iterate N u (start s))))).
    { unfold iterate. apply loop_shown; [exact Hm|]. constructor. }
    destruct (iterate N u (start s)) as [s4 v|s4 v|s4]; cbn [flow_state snd] in *; rewrite ?finish_recs; exact HL.
  Qed.

  (** After a restart the ground node reads zero. *)
  Theorem restart_ground nr nc lr s :
    (forall l w, l < nl N -> w_pot (lr l w) n = w_pot w n) ->
    w_pot (sWorld (restart N nr nc lr s)) n = n0.
  Proof.
    intros Hl. unfold restart. set (s3 := on_world _ (on_world (nc n) _)).
    assert (H3 : w_pot (sWorld s3) n = n0) by (unfold s3; cbn; apply updv_eq). clearbody s3.
    pose proof (loop_inv (fun _ s => w_pot (sWorld s) n = n0) (fun l s => on_world (lr l) s) (nl N) 0 s3 H3) as HL.
    apply HL. intros l a Hla Ha. cbn. rewrite Hl by lia. exact Ha.
  Qed.
End Thms.
