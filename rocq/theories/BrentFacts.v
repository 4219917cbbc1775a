(** * Facts about the bracketing root finder *)
From Coq Require Import Floats Reals Lra Lia List Bool ZArith Psatz.
From Verif Require Import Num Ord Round Brent.
Import ListNotations.
Local Open Scope R_scope.

(** The bracket. *)
Section Signs.
  Context {T : Type} {N : Num T} {V : NumVal T}.
  Variable f : T -> T.

  Lemma same_sign_spec u v : nnan u = false -> nnan v = false ->
    same_sign u v = true <-> 0 < val u * val v.
  Proof.
    intros A B. unfold same_sign. rewrite !val_lt by (auto; apply fin_nan, fin_0). rewrite !val_0.
    repeat match goal with |- context [Rltb ?a ?b] => destruct (Rltb_spec a b) end; cbn [andb orb];
    split; intro H; try discriminate H; try reflexivity; nra.
  Qed.

  (** [w] holds values of the function at points of [l], with a sign change between
      [a] and [c], or between [b] and [c]. *)
  Definition known (l : list T) (w : Vars T) : Prop :=
    In (va w) l /\ In (vb w) l /\ In (vc w) l /\
    vfa w = f (va w) /\ vfb w = f (vb w) /\ vfc w = f (vc w).
  Definition pre (w : Vars T) : Prop := val (vfa w) * val (vfc w) <= 0.
  Definition post (w : Vars T) : Prop := val (vfb w) * val (vfc w) <= 0.
  Definition all_num (l : list T) : Prop := forall x, In x l -> nnan (f x) = false.

  Lemma known_num l w : known l w -> all_num l ->
    nnan (vfa w) = false /\ nnan (vfb w) = false /\ nnan (vfc w) = false.
  Proof. intros (A & B & C & -> & -> & ->) H. auto. Qed.

  Lemma head_known l w : known l w -> known l (best_first (rename w)).
  Proof.
    intro K. assert (R : known l (rename w)).
    { destruct K as (A & B & C & D & E & F). unfold rename. destruct same_sign; unfold known; cbn; auto 10. }
    destruct R as (A & B & C & D & E & F). unfold best_first. destruct (_ <~ _); unfold known; cbn; auto 10.
  Qed.

  Lemma head_post l w : known l w -> all_num l -> pre w -> post (best_first (rename w)).
  Proof.
    intros K A P. destruct (known_num l w K A) as (Na & Nb & Nc).
    assert (R : post (rename w)).
    { unfold rename, post, pre in *. destruct (same_sign (vfb w) (vfc w)) eqn:S; cbn [vfb vfc].
      - apply same_sign_spec in S; auto. nra.
      - destruct (Rle_lt_dec (val (vfb w) * val (vfc w)) 0) as [L|L]; [exact L|].
        apply same_sign_spec in L; auto. congruence. }
    unfold best_first, post in *. destruct (_ <~ _); cbn [vfb vfc]; lra.
  Qed.

  Lemma head_best l w : known l w -> all_num l ->
    Rabs (val (vfb (best_first (rename w)))) <= Rabs (val (vfc (best_first (rename w)))).
  Proof.
    intros K A. assert (Kr : known l (rename w)).
    { destruct K as (H1 & H2 & H3 & H4 & H5 & H6). unfold rename. destruct same_sign; unfold known; cbn; auto 10. }
    destruct (known_num l (rename w) Kr A) as (_ & Nb & Nc). unfold best_first.
    rewrite val_lt by (rewrite abs_nan; assumption). rewrite !val_abs by assumption.
    destruct (Rltb_spec (Rabs (val (vfc (rename w)))) (Rabs (val (vfb (rename w))))); cbn [vfb vfc]; lra.
  Qed.

  Lemma advance_pre tol w : post w -> pre (advance f tol w).
  Proof. unfold advance, pre, post. destruct (step_size tol w). cbn [vfa vfc]. auto. Qed.

  Lemma advance_known l tol w : known l w -> known (l ++ [vb (advance f tol w)]) (advance f tol w).
  Proof.
    intros (A & B & C & D & E & F). unfold advance, known. destruct (step_size tol w). cbn [va vb vc vfa vfb vfc].
    repeat split; auto; apply in_or_app; cbn; auto.
  Qed.

  Lemma iterate_signs tol : forall cnt iter w l x n m,
    known l w -> pre w -> iterate f tol cnt iter w = (Found x n, m) -> all_num (l ++ m) ->
    exists w', known (l ++ m) w' /\ post w' /\ Rabs (val (vfb w')) <= Rabs (val (vfc w')) /\
      x = vb w' /\ converged tol w' = true.
  Proof.
    induction cnt as [|cnt IH]; intros iter w l x n m K P E A; cbn [iterate] in E; [discriminate E|].
    assert (Al : all_num l) by (intros y I; apply A, in_or_app; auto).
    set (h := best_first (rename w)) in *.
    assert (Kh : known l h) by now apply head_known.
    assert (Ph : post h) by now apply (head_post l).
    destruct (converged tol h) eqn:C.
    - assert (x = vb h /\ m = []) as (-> & ->) by (split; congruence).
      exists h. rewrite app_nil_r. pose proof (head_best l w K Al). auto.
    - destruct (iterate f tol cnt (S iter) (advance f tol h)) as (r & l') eqn:Ei.
      assert (r = Found x n /\ m = vb (advance f tol h) :: l') as (-> & ->) by (split; congruence).
      replace (l ++ vb (advance f tol h) :: l') with ((l ++ [vb (advance f tol h)]) ++ l') in *
        by (rewrite <- app_assoc; reflexivity).
      eapply (IH _ _ _ _ _ _ _ _ Ei A).
      Unshelve. now apply advance_known. now apply advance_pre.
  Qed.

  Lemma iterate_count tol : forall cnt iter w r l, iterate f tol cnt iter w = (r, l) ->
    (length l <= cnt)%nat /\
    match r with
    | Found _ n => (iter <= n)%nat /\ (n = iter + length l)%nat /\ (n < iter + cnt)%nat
    | NotBracketed => False
    | NotConverged => length l = cnt
    end.
  Proof.
    induction cnt as [|cnt IH]; intros iter w r l E; cbn [iterate] in E.
    - assert (r = NotConverged /\ l = []) as (-> & ->) by (split; congruence). cbn. auto.
    - destruct (converged tol (best_first (rename w))).
      + assert (r = Found (vb (best_first (rename w))) iter /\ l = []) as (-> & ->) by (split; congruence). cbn. lia.
      + destruct (iterate f tol cnt (S iter) (advance f tol (best_first (rename w)))) as (r' & l') eqn:Ei.
        destruct (IH _ _ _ _ Ei) as (A & B).
        assert (r' = r /\ l = vb (advance f tol (best_first (rename w))) :: l') as (-> & ->) by (split; congruence).
        cbn [length]. split; [lia|]. destruct r; [lia | exact B | lia].
  Qed.
End Signs.

(** The trial points, over the reals. *)
Section Range.
  Variable f : R -> R.
  Variables lo hi : R.

  Definition inside (w : Vars R) : Prop :=
    lo <= va w <= hi /\ lo <= vb w <= hi /\ lo <= vc w <= hi.

  Lemma head_inside w : inside w -> inside (best_first (rename w)).
  Proof.
    intro I. assert (R : inside (rename w)).
    { destruct I as (A & B & C). unfold rename. destruct same_sign; unfold inside; cbn; auto. }
    destruct R as (A & B & C). unfold best_first. destruct (_ <~ _); unfold inside; cbn; auto.
  Qed.

  Lemma R_dec5 : Rdec 5 (-1) = 1 / 2.
  Proof. unfold Rdec. cbn. lra. Qed.
  Lemma R_dec2 : Rdec 2 0 = 2.
  Proof. unfold Rdec. cbn. lra. Qed.
  Lemma R_dec3 : Rdec 3 0 = 3.
  Proof. unfold Rdec. cbn. lra. Qed.

  (** A step goes towards [c] and not further than three quarters of the way. *)
  Lemma step_bound tol w d e : step_size tol w = (d, e) ->
    0 <= d * xmid w /\ Rabs d <= 3 / 2 * Rabs (xmid w).
  Proof.
    unfold step_size. set (xm := xmid w). set (t := tol1 tol w).
    assert (B : 0 <= xm * xm /\ Rabs xm <= 3 / 2 * Rabs xm) by (split; [nra | pose proof (Rabs_pos xm); lra]).
    destruct (_ && _); [|intro E; assert (d = xm) by congruence; subst d; exact B].
    destruct (quotient w) as (p & q). rnum.
    set (q' := if Rltb 0 p then - q else q).
    match goal with |- (if Rltb ?a ?b then _ else _) = _ -> _ => set (m := b); set (p2 := a) end.
    destruct (Rltb_spec p2 m) as [L|L]; [|intro E; assert (d = xm) by congruence; subst d; exact B].
    intro E. assert (Ed : d = Rabs p / q') by congruence. clear E B.
    assert (M : m <= 3 * xm * q').
    { unfold m. rewrite R_dec3. pose proof (Rabs_pos (t * q')).
      destruct (Rltb_spec (3 * xm * q' - Rabs (t * q')) (Rabs (ve w * q'))); lra. }
    unfold p2 in L. rewrite R_dec2 in L. pose proof (Rabs_pos p) as P.
    assert (Q : 0 < xm * q') by lra.
    assert (Q0 : q' <> 0) by (intro Z; rewrite Z in Q; lra).
    assert (Dq : d * q' = Rabs p) by (rewrite Ed; field; exact Q0).
    assert (Qq : 0 < q' * q') by nra.
    split.
    - assert (0 <= (d * q') * (xm * q')) by (rewrite Dq; apply Rmult_le_pos; lra).
      assert (X : (d * q') * (xm * q') = (d * xm) * (q' * q')) by ring. rewrite X in H.
      apply (Rmult_le_reg_r (q' * q')); [exact Qq | lra].
    - apply (Rmult_le_reg_r (Rabs q')); [apply Rabs_pos_lt, Q0|].
      rewrite <- Rabs_mult, Dq, Rabs_Rabsolu.
      replace (3 / 2 * Rabs xm * Rabs q') with (3 / 2 * Rabs (xm * q')) by (rewrite Rabs_mult; ring).
      rewrite (Rabs_right (xm * q')) by lra. lra.
  Qed.

  Lemma trial_between tol w d e : step_size tol w = (d, e) -> converged tol w = false ->
    Rmin (vb w) (vc w) <= trial tol w d <= Rmax (vb w) (vc w).
  Proof.
    intros S C. destruct (step_bound tol w d e S) as (D1 & D2).
    unfold converged in C. apply orb_false_iff in C. destruct C as (C & _).
    change (Rleb (Rabs (xmid w)) (tol1 tol w) = false) in C.
    destruct (Rleb_spec (Rabs (xmid w)) (tol1 tol w)) as [?|G]; [discriminate C|]. clear C.
    assert (X : 2 * xmid w = vc w - vb w) by (unfold xmid; rnum; rewrite R_dec5; lra).
    unfold trial. rnum. set (t := tol1 tol w) in *. set (xm := xmid w) in *. clearbody t xm.
    assert (U : forall s, 0 <= s * xm -> Rabs s <= 3 / 2 * Rabs xm -> Rmin (vb w) (vc w) <= vb w + s <= Rmax (vb w) (vc w)).
    { clear -X. intros s A B. unfold Rmin, Rmax. unfold Rabs in B. repeat destruct Rle_dec; repeat destruct Rcase_abs in B; nra. }
    destruct (Rltb_spec t (Rabs d)) as [L|L]; [now apply U|].
    assert (T0 : 0 <= t) by (pose proof (Rabs_pos d); lra).
    destruct (Rleb_spec 0 xm) as [Z|Z].
    - apply U; [nra|]. rewrite (Rabs_right t), (Rabs_right xm) in * by lra. lra.
    - replace (vb w - t) with (vb w + - t) by ring. apply U; [nra|].
      rewrite Rabs_Ropp, (Rabs_right t), (Rabs_left xm) in * by lra. lra.
  Qed.

  Lemma advance_inside tol w : inside w -> converged tol w = false -> inside (advance f tol w).
  Proof.
    intros (A & B & C) H. unfold advance. destruct (step_size tol w) as (d & e) eqn:S.
    pose proof (trial_between tol w d e S H) as (L & M). unfold inside. cbn [va vb vc].
    split; [exact B|]. split; [|exact C].
    unfold Rmin, Rmax in *. repeat destruct Rle_dec; lra.
  Qed.

  Lemma iterate_inside tol : forall cnt iter w r l, inside w -> iterate f tol cnt iter w = (r, l) ->
    (forall x, In x l -> lo <= x <= hi) /\ match r with Found x _ => lo <= x <= hi | _ => True end.
  Proof.
    induction cnt as [|cnt IH]; intros iter w r l I E; cbn [iterate] in E.
    - assert (r = NotConverged /\ l = []) as (-> & ->) by (split; congruence). split; [intros x []|exact Logic.I].
    - pose proof (head_inside w I) as Ih. set (h := best_first (rename w)) in *. destruct (converged tol h) eqn:C.
      + assert (r = Found (vb h) iter /\ l = []) as (-> & ->) by (split; congruence). split; [intros x []|apply Ih].
      + destruct (iterate f tol cnt (S iter) (advance f tol h)) as (r' & l') eqn:Ei.
        pose proof (advance_inside tol h Ih C) as Ia. destruct (IH _ _ _ _ Ia Ei) as (A & B).
        assert (r' = r /\ l = vb (advance f tol h) :: l') as (-> & ->) by (split; congruence).
        split; [|exact B]. intros x [<-|X]; [apply Ia | now apply A].
  Qed.
End Range.
