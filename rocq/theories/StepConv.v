(** Convergence, decisions, rollback and output of the solver step (C14-C17, C19, C22). *)
From Coq Require Import Lia List Arith Bool ZArith Permutation.
From Verif Require Import Num Loops Ldu Assembly Islands IslandSolve StepModel Spec_Step StepFacts StepBudget.
Import ListNotations.

Lemma verdict_perm c ds ds' : Permutation ds ds' -> verdict c ds = verdict c ds'.
Proof.
  intros HP. unfold verdict.
  assert (Hex : forall f : decision -> bool, existsb f ds = existsb f ds').
  { intros f. induction HP as [|x a b HP IH|x y a|a b d HP1 IH1 HP2 IH2]; cbn; [reflexivity|now rewrite IH| |congruence].
    destruct (f x), (f y); reflexivity. }
  now rewrite !Hex.
Qed.

Lemma effective_alt c d : (if Nat.eqb 0 c && is_delay d then CONFIRM else d) = effective c d.
Proof. destruct c, d; reflexivity. Qed.

Section Conv.
  Context {T : Type} `{NT : Num T} {E : Type}.
  Variable N : net T E.
  Local Notation n := (nn N).
  Local Notation st := (state T E).

  Lemma same_refl (x : nat -> T) : same_on n x x.
  Proof. intros i _. reflexivity. Qed.
  Lemma same_trans (x y z : nat -> T) : same_on n x y -> same_on n y z -> same_on n x z.
  Proof. intros A B i Hi. rewrite A, B by assumption. reflexivity. Qed.
  Lemma same_sym (x y : nat -> T) : same_on n x y -> same_on n y x.
  Proof. intros A i Hi. now rewrite A. Qed.
  Lemma same_copy from to : same_on n (copy_vec N from to) from.
  Proof. intros i Hi. now apply copy_vec_in. Qed.

  (** ** The decision (C15) *)

  Definition nonlinear_links : list nat := filter (l_nonlin N) (seq 0 (nl N)).

  Lemma confirm_prefix c k s m : m <= nl N ->
    let a := loop (confirm_link N c k) 0 m (CONFIRM, s) in
    exists ans, 
      sCalls (snd a) = sCalls s ++ map (fun l => CConfirm l c k (ans l)) (filter (l_nonlin N) (seq 0 m)) /\
      fst a = verdict c (map ans (filter (l_nonlin N) (seq 0 m))) /\
      (forall l, l < m -> l_nonlin N l = true -> sLconv (snd a) l = effective c (ans l)).
  Proof.
    cbv zeta. induction m as [|m IH]; intros Hm.
    { exists (fun _ => CONFIRM). cbn. rewrite app_nil_r. split; [reflexivity|]. split; [reflexivity|]. intros; lia. }
    destruct (IH ltac:(lia)) as (ans & E1 & E2 & E3). rewrite loop_snoc. cbn [Nat.add].
    set (a := loop (confirm_link N c k) 0 m (CONFIRM, s)) in *.
    rewrite seq_S. cbn [Nat.add]. rewrite filter_app. cbn [filter]. unfold confirm_link.
    destruct (l_nonlin N m) eqn:Hnl.
    - destruct (l_confirm N m c k (sWorld (snd a))) as [d w]. cbn [fst snd].
      exists (fun l => if Nat.eqb l m then d else ans l).
      assert (Hsame : forall X (g : nat -> decision -> X),
        map (fun l => g l (if Nat.eqb l m then d else ans l)) (filter (l_nonlin N) (seq 0 m)) =
        map (fun l => g l (ans l)) (filter (l_nonlin N) (seq 0 m))).
      { intros X g. apply map_ext_in. intros l Hl. apply filter_In in Hl. destruct Hl as [Hl _]. apply in_seq in Hl.
        destruct (Nat.eqb_spec l m); [lia|reflexivity]. }
      rewrite !map_app. cbn [map]. rewrite Nat.eqb_refl.
      rewrite (Hsame _ (fun l x => CConfirm l c k x)), (Hsame _ (fun _ x => x)).
      split; [|split].
      + cbn. rewrite E1, <- app_assoc. reflexivity.
      + rewrite E2. set (ds := map ans _). unfold verdict. rewrite !existsb_app. cbn [existsb]. rewrite !orb_false_r.
        assert (He : (if Nat.eqb 0 c && is_delay d then CONFIRM else d) = effective c d).
        { apply effective_alt. }
        rewrite He. destruct (existsb (fun d => is_reject (effective c d)) ds) eqn:H1;
          destruct (existsb (fun d => is_delay (effective c d)) ds) eqn:H2;
          destruct (effective c d) eqn:H3; reflexivity.
      + intros l Hl Hn. cbn. destruct (Nat.eqb_spec l m) as [->|Hne].
        * apply effective_alt.
        * apply E3; [lia|exact Hn].
    - exists ans. rewrite app_nil_r. split; [exact E1|]. split; [exact E2|].
      intros l Hl Hn. destruct (Nat.eq_dec l m) as [->|Hne]; [congruence|]. apply E3; [lia|exact Hn].
  Qed.

  Lemma confirm_spec c k s :
    exists ans,
      sCalls (snd (confirm N c k s)) = sCalls s ++ map (fun l => CConfirm l c k (ans l)) nonlinear_links /\
      fst (confirm N c k s) = verdict c (map ans nonlinear_links) /\
      (forall l, In l nonlinear_links -> sLconv (snd (confirm N c k s)) l = effective c (ans l)).
  Proof.
    destruct (confirm_prefix c k s (nl N) (le_n _)) as (ans & A & B & C). exists ans.
    split; [exact A|]. split; [exact B|]. intros l Hl. apply filter_In in Hl. destruct Hl as [Hl Hn].
    apply in_seq in Hl. apply C; [lia|exact Hn].
  Qed.

  Lemma verdict_confirm c ds : 0 < c -> verdict c ds = CONFIRM -> Forall (fun d => d = CONFIRM) ds.
  Proof.
    intros Hc. unfold verdict. destruct (existsb (fun d => is_reject (effective c d)) ds) eqn:H1; [discriminate|].
    destruct (existsb (fun d => is_delay (effective c d)) ds) eqn:H2; [discriminate|]. intros _.
    apply Forall_forall. intros d Hd. destruct d; [reflexivity| |].
    - exfalso. assert (existsb (fun d => is_delay (effective c d)) ds = true); [|congruence].
      apply existsb_exists. exists DELAY. split; [exact Hd|]. cbn. destruct (Nat.eqb_spec c 0); [lia|reflexivity].
    - exfalso. assert (existsb (fun d => is_reject (effective c d)) ds = true); [|congruence].
      apply existsb_exists. exists REJECT. split; [exact Hd|]. reflexivity.
  Qed.

  (** ** The convergence check *)

  Lemma check_convergence_spec s :
    fst (check_convergence N s) = true <-> close n (tol N) (sMin s) (sP s).
  Proof.
    unfold check_convergence, close.
    set (f := fun (i : nat) (a : option nat * (nat -> T)) => _).
    assert (HI : forall m, (fst (loop f 0 m (None, sNconv s)) = None) <->
      (forall i, i < m -> (tol N <~ nabs (sMin s i -~ sP s i)) = false)).
    { induction m as [|m IH]; [cbn; split; [intros; lia|reflexivity]|].
      rewrite loop_snoc. cbn [Nat.add]. unfold f at 1. cbn [fst].
      destruct (tol N <~ nabs (sMin s m -~ sP s m)) eqn:Hm.
      - split; [discriminate|]. intros H. specialize (H m ltac:(lia)). congruence.
      - rewrite IH. split; intros H i Hi; [|apply H; lia].
        destruct (Nat.eq_dec i m) as [->|Hne]; [exact Hm|apply H; lia]. }
    specialize (HI n). destruct (loop f 0 n (None, sNconv s)) as [[x|] c]; cbn [fst] in *.
    - split; [discriminate|]. intros H. apply HI in H. discriminate.
    - split; [|reflexivity]. intros _. apply HI. reflexivity.
  Qed.

  Lemma core_P (s s' : st) : core s' = core s -> sP s' = sP s /\ sMin s' = sMin s /\ sRecs s' = sRecs s /\ sMaj s' = sMaj s.
  Proof. unfold core. intros H. injection H. intros. auto. Qed.

  (** ** One judgement *)

  Lemma last_kept_snoc m0 (rs : list (@mrec T E)) r :
    last_kept m0 (rs ++ [r]) = if is_reject (r_dec r) then last_kept m0 rs else r_P r.
  Proof. revert m0. induction rs as [|q rs IH]; intros m0; cbn; [reflexivity|]. apply IH. Qed.

  Lemma well_chained_snoc m0 (rs : list (@mrec T E)) r :
    well_chained n m0 rs ->
    same_on n (r_ref r) (last_kept m0 rs) ->
    same_on n (r_after r) (if is_reject (r_dec r) then last_kept m0 rs else r_P r) ->
    well_chained n m0 (rs ++ [r]).
  Proof.
    intros Hw H1 H2 a q b Heq. destruct (@exists_last _ (q :: b)) as (b' & z & Hb); [discriminate|].
    rewrite Hb, app_assoc in Heq. apply app_inj_tail in Heq. destruct Heq as [Heq ->].
    destruct b' as [|q' b'].
    - cbn in Hb. injection Hb. intros -> ->. rewrite app_nil_r in Heq. subst a. auto.
    - cbn in Hb. injection Hb as <- Hb. apply (Hw a q b'). now rewrite Heq.
  Qed.

  (** State of the loop between minor steps, for a non-linear network in
      NORMAL mode; [m0] is the minor potential vector at the start. *)
  Definition linked (m0 : nat -> T) (s : st) : Prop :=
    well_chained n m0 (sRecs s) /\ same_on n (sMin s) (last_kept m0 (sRecs s)).

  Lemma judge_linked u k s v m0 : linked m0 s -> linked m0 (flow_state (judge N u k s v)).
  Proof.
    intros (Hw & Hm). unfold judge. set (p := if is_delay (v_res v) then _ else _).
    assert (Hp : core (snd p) = core s).
    { unfold p. destruct (is_delay (v_res v)); [reflexivity|]. apply check_convergence_core. }
    destruct p as [ok s1]. cbn [snd] in Hp. set (c := if ok then _ else _).
    pose proof (confirm_core N c k s1) as Hc. destruct (confirm N c k s1) as [d s2]. cbn [snd] in Hc.
    rewrite Hp in Hc. destruct (core_P _ _ Hc) as (P2 & M2 & R2 & _).
    destruct (is_reject d) eqn:Hd.
    - cbn [flow_state]. set (so := output N u (reset_to_minor N s2)). set (s3 := reset_links N c k so).
      assert (E3 : core s3 = core (reset_to_minor N s2)) by (unfold s3, so; now rewrite reset_links_core, output_core).
      destruct (core_P _ _ E3) as (P3 & M3 & R3 & _).
      change (sRecs (reset_to_minor N s2)) with (sRecs s2) in R3.
      change (sMin (reset_to_minor N s2)) with (sMin s2) in M3.
      change (sP (reset_to_minor N s2)) with (copy_vec N (sMin s2) (sP s2)) in P3.
      clearbody s3. unfold linked. cbn [set_sRecs sRecs sMin]. rewrite R3, R2. split.
      + apply well_chained_snoc; [exact Hw|exact Hm|]. cbn [r_dec r_after]. rewrite Hd, P3, M2.
        eapply same_trans; [apply same_copy|exact Hm].
      + rewrite last_kept_snoc. cbn [r_dec]. rewrite Hd, M3, M2. exact Hm.
    - set (s4 := set_sRecs _ _).
      assert (H4 : linked m0 s4).
      { unfold linked, s4. cbn [set_sRecs save_minor set_sMin sRecs sMin sP]. rewrite R2, P2. split.
        - apply well_chained_snoc; [exact Hw|exact Hm|]. cbn [r_dec r_after]. rewrite Hd. apply same_refl.
        - rewrite last_kept_snoc. cbn [r_dec r_P]. rewrite Hd. apply same_copy. }
      destruct (is_confirm d && Nat.ltb 0 c); [|exact H4].
      destruct (negb (i_worst u) || _); exact H4.
  Qed.

  (** ** Convergence invariant, without worst-case timing *)

  Definition waiting (s : st) (v : local) : Prop :=
    v_net v = false /\
    (v_res v = DELAY -> settled n (tol N) (sRecs s) /\ same_on n (sP s) (sMin s) /\
        (exists a q, sRecs s = a ++ [q] /\ same_on n (sP s) (r_P q))) /\
    (v_res v <> DELAY -> v_conv v = 0).

  (** What acceptance means. *)
  Definition accepted (s : st) : Prop :=
    exists rs r, sRecs s = rs ++ [r] /\ r_dec r = CONFIRM /\
      (close n (tol N) (r_ref r) (r_P r) \/ (settled n (tol N) rs /\ same_on n (r_P r) (r_ref r))) /\
      same_on n (sP s) (r_P r) /\ same_on n (sMin s) (r_P r) /\ 0 < r_conv r /\
      exists cs, sCalls s = cs ++ map (fun l => CConfirm l (r_conv r) (r_k r) CONFIRM) nonlinear_links.

  Definition judged (f : flow) : Prop :=
    match f with Go s' v' => waiting s' v' | Stop s' v' => v_net v' = true /\ accepted s' | Throw _ => False end.

  Lemma judge_waiting u k s v : i_worst u = false -> v_net v = false ->
    (v_res v = DELAY -> settled n (tol N) (sRecs s) /\ same_on n (sP s) (sMin s) /\
        (exists a q, sRecs s = a ++ [q] /\ same_on n (sP s) (r_P q))) ->
    (v_res v <> DELAY -> v_conv v = 0) ->
    judged (judge N u k s v).
  Proof.
    intros Hu Hnet Hdel Hnd. unfold judge. set (p := if is_delay (v_res v) then _ else _).
    assert (Hp : core (snd p) = core s).
    { unfold p. destruct (is_delay (v_res v)); [reflexivity|]. apply check_convergence_core. }
    assert (Hok : fst p = true -> (v_res v = DELAY \/ close n (tol N) (sMin s) (sP s))).
    { unfold p. destruct (v_res v); cbn; try (right; now apply check_convergence_spec). now left. }
    assert (Hkon : fst p = false -> v_res v <> DELAY) by (unfold p; destruct (v_res v); cbn; congruence).
    destruct p as [ok s1]. cbn [fst snd] in *. set (c := if ok then _ else _).
    pose proof (confirm_core N c k s1) as Hc. destruct (confirm_spec c k s1) as (ans & C1 & C2 & _).
    destruct (confirm N c k s1) as [d s2]. cbn [fst snd] in *.
    rewrite Hp in Hc. destruct (core_P _ _ Hc) as (P2 & M2 & R2 & _).
    assert (Hc0 : 0 < c -> v_res v = DELAY \/ close n (tol N) (sMin s) (sP s)).
    { intros H0. destruct ok; [now apply Hok|]. unfold c in H0. rewrite Hnd in H0 by now apply Hkon. lia. }
    destruct (is_reject d) eqn:Hd.
    { cbn. split; [exact Hnet|]. destruct d; try discriminate. cbn. split; [discriminate|reflexivity]. }
    set (s4 := set_sRecs _ _).
    assert (R4 : sRecs s4 = sRecs s ++ [mkrec k (sP s) (sMin s) c d (sP s2) (sWorld s)])
      by (unfold s4; cbn; now rewrite R2).
    assert (P4 : sP s4 = sP s) by (unfold s4; cbn; exact P2).
    assert (M4 : same_on n (sMin s4) (sP s)).
    { unfold s4. cbn. rewrite P2. apply same_copy. }
    assert (K4 : sCalls s4 = sCalls s2) by reflexivity. clearbody s4.
    assert (Hsettle : 0 < c -> settled n (tol N) (sRecs s) /\ same_on n (sP s) (sMin s) /\
        (exists a q, sRecs s = a ++ [q] /\ same_on n (sP s) (r_P q)) \/ close n (tol N) (sMin s) (sP s)).
    { intros H0. destruct (Hc0 H0) as [H|H]; [left; now apply Hdel|now right]. }
    destruct d; try discriminate; cbn [is_confirm andb].
    - destruct (Nat.ltb_spec 0 c) as [Hpos|Hz].
      + rewrite Hu. cbn [negb orb judged v_net]. split; [reflexivity|].
        exists (sRecs s), (mkrec k (sP s) (sMin s) c CONFIRM (sP s2) (sWorld s)).
        split; [exact R4|]. split; [reflexivity|]. split; [|split; [|split; [|split]]].
        * destruct (Hsettle Hpos) as [(H1 & H2 & _)|H1]; [right; split; [exact H1|exact H2]|left; exact H1].
        * cbn. rewrite P4. apply same_refl.
        * exact M4.
        * exact Hpos.
        * exists (sCalls s1). rewrite K4, C1. f_equal. cbn [r_conv r_k].
          symmetry in C2. apply verdict_confirm in C2; [|exact Hpos]. rewrite Forall_forall in C2.
          apply map_ext_in. intros l Hl. rewrite (C2 (ans l)); [reflexivity|]. now apply in_map.
      + cbn. split; [exact Hnet|]. split; [discriminate|]. intros _. cbn. lia.
    - (* delay *)
      assert (Hpos : 0 < c).
      { destruct (Nat.eq_dec c 0) as [Hz|]; [|lia]. exfalso. unfold verdict in C2. rewrite Hz in C2.
        destruct (existsb (fun d => is_reject (effective 0 d)) _); [discriminate|].
        destruct (existsb (fun d => is_delay (effective 0 d)) _) eqn:Hx; [|discriminate].
        apply existsb_exists in Hx. destruct Hx as (x & _ & Hx). destruct x; discriminate. }
      cbn. split; [exact Hnet|]. split; [|intros Hx; elim Hx; reflexivity]. intros _.
      split; [|split].
      + destruct (Hsettle Hpos) as [((a & r & b & H1 & H2 & H3 & H4) & H5 & (a' & q & H6 & H7))|H1].
        * exists a, r, (b ++ [mkrec k (sP s) (sMin s) c DELAY (sP s2) (sWorld s)]).
          split; [rewrite R4, H1, <- app_assoc; reflexivity|]. split; [exact H2|]. split; [exact H3|].
          apply Forall_app. split; [exact H4|]. constructor; [|constructor]. cbn. split; [reflexivity|].
          eapply same_trans; [exact H7|].
          rewrite H1 in H6. destruct (@exists_last _ (r :: b)) as (b' & z & Hb); [discriminate|].
          rewrite Hb, app_assoc in H6. apply app_inj_tail in H6. destruct H6 as [_ <-].
          destruct b' as [|q' b']; cbn in Hb; injection Hb.
          -- intros _ ->. apply same_refl.
          -- intros Hb' _. rewrite Hb' in H4. apply Forall_app in H4. destruct H4 as [_ H4].
             inversion H4 as [|? ? Hz _]; subst. apply Hz.
        * exists (sRecs s), (mkrec k (sP s) (sMin s) c DELAY (sP s2) (sWorld s)), [].
          split; [exact R4|]. split; [exact H1|]. split; [reflexivity|constructor].
      + rewrite P4. apply same_sym. exact M4.
      + eexists _, _. split; [exact R4|]. cbn. rewrite P4. apply same_refl.
  Qed.
End Conv.
