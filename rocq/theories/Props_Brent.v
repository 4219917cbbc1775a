(** * The properties of the bracketing root finder *)
From Coq Require Import Floats Reals Lra Lia List Bool ZArith Psatz.
From Verif Require Import Num Ord Round Brent BrentFacts.
Import ListNotations.
Local Open Scope R_scope.

(** ** C47 *)

(** One value is not above zero and the other is not below it. *)
Definition sign_change {T} {N : Num T} {V : NumVal T} (u v : T) : Prop :=
  val u <= 0 <= val v \/ val v <= 0 <= val u.

(** [solve] returns a point where it evaluated the function.  The value there is zero,
    or the sign changes between it and another such point, half of whose distance is
    within the tolerance; the value there is not larger.  The number type is the reals or binary64. *)
Theorem C47_bracket : forall (T : Type) (N : Num T) (V : NumVal T) (f : T -> T) x1 x2 tol x n l,
  solve f x1 x2 tol = (Found x n, l) -> (forall y, In y l -> nnan (f y) = false) ->
  In x l /\
  exists c, In c l /\ sign_change (f x) (f c) /\ Rabs (val (f x)) <= Rabs (val (f c)) /\
    ((nabs (ndec 5 (-1) *~ (c -~ x)) <=~ ndec 2 0 *~ neps *~ nabs x +~ ndec 5 (-1) *~ tol) = true \/
     (n0 ==~ f x) = true).
Proof.
  intros T N V f x1 x2 tol x n l E A. unfold solve in E. destruct (same_sign (f x1) (f x2)) eqn:S; [discriminate E|].
  set (w := mkVars x1 x2 x2 n0 n0 (f x1) (f x2) (f x2)) in E.
  destruct (iterate f tol 100 1 w) as (r & m) eqn:I.
  assert (r = Found x n /\ l = [x1; x2] ++ m) as (-> & ->) by (split; cbn [app]; congruence).
  assert (K : known f [x1; x2] w) by (unfold known, w; cbn; auto 10).
  assert (P : pre w).
  { unfold pre, w. cbn [vfa vfc]. destruct (Rle_lt_dec (val (f x1) * val (f x2)) 0) as [L|L]; [exact L|].
    apply same_sign_spec in L; [congruence | |]; apply A; cbn; auto. }
  destruct (iterate_signs f tol 100 1 w [x1; x2] x n m K P I A) as (w' & (_ & B & C & _ & Fb & Fc) & Po & Be & -> & Cv).
  split; [exact B|]. exists (vc w'). split; [exact C|]. unfold post in Po. rewrite Fb, Fc in Po, Be.
  split; [|split; [exact Be|]].
  - unfold sign_change. destruct (Rle_lt_dec (val (f (vb w'))) 0), (Rle_lt_dec 0 (val (f (vc w')))); [left; lra | | | right; nra].
    + destruct (Rle_lt_dec 0 (val (f (vb w')))); [right; lra | nra].
    + destruct (Rle_lt_dec (val (f (vc w'))) 0); [right; lra | nra].
  - unfold converged, xmid, tol1 in Cv. rewrite Fb in Cv. apply orb_true_iff in Cv. exact Cv.
Qed.
Print Assumptions C47_bracket.

(** Over the reals no point is outside the starting interval. *)
Theorem C47_inside : forall (f : R -> R) x1 x2 tol r l, solve f x1 x2 tol = (r, l) ->
  (forall y, In y l -> Rmin x1 x2 <= y <= Rmax x1 x2) /\
  match r with Found x _ => Rmin x1 x2 <= x <= Rmax x1 x2 | _ => True end.
Proof.
  intros f x1 x2 tol r l E. unfold solve in E.
  assert (E1 : Rmin x1 x2 <= x1 <= Rmax x1 x2) by (split; [apply Rmin_l | apply Rmax_l]).
  assert (E2 : Rmin x1 x2 <= x2 <= Rmax x1 x2) by (split; [apply Rmin_r | apply Rmax_r]).
  destruct (same_sign (f x1) (f x2)).
  - assert (r = NotBracketed /\ l = [x1; x2]) as (-> & ->) by (split; congruence).
    split; [|exact I]. intros y [<-|[<-|[]]]; assumption.
  - destruct (iterate f tol 100 1 (mkVars x1 x2 x2 n0 n0 (f x1) (f x2) (f x2))) as (r' & m) eqn:Ei.
    assert (r' = r /\ l = x1 :: x2 :: m) as (-> & ->) by (split; congruence).
    assert (In0 : inside (Rmin x1 x2) (Rmax x1 x2) (mkVars x1 x2 x2 n0 n0 (f x1) (f x2) (f x2)))
      by (unfold inside; cbn [va vb vc]; auto).
    destruct (iterate_inside f (Rmin x1 x2) (Rmax x1 x2) tol _ _ _ _ _ In0 Ei) as (A & B).
    split; [|exact B]. intros y [<-|[<-|Y]]; auto.
Qed.
Print Assumptions C47_inside.

(** Over the reals the returned point is a zero, or there is a sign change within the
    tolerance and 4 eps |x| of it, inside the starting interval. *)
Theorem C47_width : forall (f : R -> R) x1 x2 tol x n l, solve f x1 x2 tol = (Found x n, l) ->
  Rmin x1 x2 <= x <= Rmax x1 x2 /\
  (f x = 0 \/ exists c, Rmin x1 x2 <= c <= Rmax x1 x2 /\
     (f x <= 0 <= f c \/ f c <= 0 <= f x) /\ Rabs (c - x) <= tol + 4 * Reps * Rabs x).
Proof.
  intros f x1 x2 tol x n l E. destruct (C47_inside f x1 x2 tol _ _ E) as (A & B). split; [exact B|].
  destruct (C47_bracket R _ _ f x1 x2 tol x n l E) as (_ & c & Ic & S & _ & W).
  { intros y _. unfold nnan. rnum. now rewrite Reqb_true. }
  destruct W as [W|W]; [right | left].
  - exists c. split; [now apply A|]. split; [exact S|].
    change (Rleb (Rabs (Rdec 5 (-1) * (c - x))) (Rdec 2 0 * Reps * Rabs x + Rdec 5 (-1) * tol) = true) in W.
    rewrite R_dec5, R_dec2 in W.
    match type of W with Rleb ?a ?b = true => destruct (Rleb_spec a b) as [L|L]; [|discriminate W] end.
    rewrite Rabs_mult, (Rabs_right (1 / 2)) in L by lra. lra.
  - change (Reqb 0 (f x) = true) in W. destruct (Reqb_spec 0 (f x)) as [Z|Z]; [auto | discriminate W].
Qed.
Print Assumptions C47_width.

(** So a continuous function has a zero that near. *)
Corollary C47_zero_near : forall (f : R -> R) x1 x2 tol x n l, solve f x1 x2 tol = (Found x n, l) ->
  continuity f -> 0 <= tol ->
  exists z, f z = 0 /\ Rmin x1 x2 <= z <= Rmax x1 x2 /\ Rabs (z - x) <= tol + 4 * Reps * Rabs x.
Proof.
  intros f x1 x2 tol x n l E C P. destruct (C47_width f x1 x2 tol x n l E) as (I & [Z|(c & Ic & S & W)]).
  - exists x. split; [exact Z|]. split; [exact I|]. rewrite Rminus_eq_0, Rabs_R0.
    pose proof Reps_pos. pose proof (Rabs_pos x). nra.
  - destruct (Rle_lt_dec x c) as [L|L].
    + destruct (IVT_cor f x c C L) as (z & Bz & Hz); [destruct S; nra|]. exists z. split; [exact Hz|].
      split; [lra|]. rewrite Rabs_right in * by lra. lra.
    + destruct (IVT_cor f c x C ltac:(lra)) as (z & Bz & Hz); [destruct S; nra|]. exists z. split; [exact Hz|].
      split; [lra|]. rewrite Rabs_left1 in * by lra. lra.
Qed.
Print Assumptions C47_zero_near.

(** The function is evaluated at most 102 times, and the number returned counts the
    iterations: one more than the evaluations after the first two. *)
Theorem C47_count : forall (T : Type) (N : Num T) (f : T -> T) x1 x2 tol r l,
  solve f x1 x2 tol = (r, l) ->
  (length l <= 102)%nat /\
  match r with
  | Found _ n => (1 <= n <= 100)%nat /\ length l = (n + 1)%nat
  | NotBracketed => length l = 2%nat
  | NotConverged => length l = 102%nat
  end.
Proof.
  intros T N f x1 x2 tol r l E. unfold solve in E. destruct (same_sign (f x1) (f x2)).
  - assert (r = NotBracketed /\ l = [x1; x2]) as (-> & ->) by (split; congruence). cbn. lia.
  - destruct (iterate f tol 100 1 (mkVars x1 x2 x2 n0 n0 (f x1) (f x2) (f x2))) as (r' & m) eqn:Ei.
    assert (r' = r /\ l = x1 :: x2 :: m) as (-> & ->) by (split; congruence).
    destruct (iterate_count f tol _ _ _ _ _ Ei) as (A & B). cbn [length]. split; [lia|]. destruct r; lia.
Qed.
Print Assumptions C47_count.

(** The exception for a missing bracket is thrown exactly for two values of one sign. *)
Theorem C47_not_bracketed : forall (T : Type) (N : Num T) (V : NumVal T) (f : T -> T) x1 x2 tol,
  nnan (f x1) = false -> nnan (f x2) = false ->
  fst (solve f x1 x2 tol) = NotBracketed <->
  (0 < val (f x1) /\ 0 < val (f x2)) \/ (val (f x1) < 0 /\ val (f x2) < 0).
Proof.
  intros T N V f x1 x2 tol N1 N2. unfold solve.
  pose proof (same_sign_spec (f x1) (f x2) N1 N2) as S.
  destruct (same_sign (f x1) (f x2)).
  - split; [intros _ | reflexivity]. assert (P : 0 < val (f x1) * val (f x2)) by now apply S.
    assert (Z : val (f x1) <> 0) by (intro Z; rewrite Z in P; lra).
    destruct (Rle_lt_dec (val (f x1)) 0); [right | left]; split; first [lra | nra].
  - destruct (iterate f tol 100 1 (mkVars x1 x2 x2 n0 n0 (f x1) (f x2) (f x2))) as (r & m) eqn:Ei.
    destruct (iterate_count f tol _ _ _ _ _ Ei) as (_ & B). cbn [fst].
    split; [intros ->; contradiction|]. intro H. assert (X : false = true) by (apply S; destruct H as [(? & ?)|(? & ?)]; nra). discriminate X.
Qed.
Print Assumptions C47_not_bracketed.

Local Open Scope float_scope.
Definition square (x : float) : float := x * x - 2.
Definition shown (r : answer float * list float) : option (float * nat * nat) :=
  match r with (Found x n, l) => Some (x, n, length l) | _ => None end.

Example C47_nonvacuous_binary64 :
  shown (solve square 0 2 1e-9) <> None /\ forallb (fun y => negb (nnan (square y))) (snd (solve square 0 2 1e-9)) = true.
Proof. split; [vm_compute; discriminate | vm_compute; reflexivity]. Qed.

Example C47_nonvacuous : exists l, solve (fun x : R => x) (-1)%R 0%R 1%R = (Found 0%R 1%nat, l).
Proof.
  eexists. unfold solve. change 100%nat with (S 99). generalize 99%nat. intro k. unfold same_sign. cbn [iterate]. unfold rename, same_sign. cbn [vfb vfc]. rnum.
  rewrite (Rltb_false 0 0), (Rltb_false 0 (-1)), ?andb_false_r by lra. cbn [andb orb].
  unfold best_first. cbn [vfb vfc]. rnum. rewrite Rabs_R0, (Rltb_false 0 0) by lra.
  unfold converged. cbn [vfb]. rnum. rewrite (Reqb_true 0 0) by reflexivity. rewrite orb_true_r, ?andb_false_r. cbn [vb]. reflexivity.
Qed.

(** Twice the tolerance is not enough when it is below the precision of the numbers:
    for the square root of 2 with tolerance 0 the value at the result is not zero. *)
Theorem C47_tolerance_refuted : exists x n l,
  solve square 0 2 0 = (Found x n, l) /\ PrimFloat.eqb (square x) 0 = false.
Proof.
  destruct (solve square 0 2 0) as (r & l) eqn:E. destruct r as [x n| |].
  - exists x, n, l. split; [reflexivity|]. vm_compute in E. injection E as <- _ _. vm_compute. reflexivity.
  - vm_compute in E. discriminate E.
  - vm_compute in E. discriminate E.
Qed.
Print Assumptions C47_tolerance_refuted.

(** In binary64 the length of a huge interval overflows and the function is evaluated
    outside it, at an infinity. *)
Theorem C47_binary64_refuted : exists y,
  In y (snd (solve (fun x => x) (-1.7e308) 1.7e308 1)) /\ PrimFloat.eqb y neg_infinity = true.
Proof.
  exists neg_infinity. split; [|vm_compute; reflexivity].
  destruct (solve (fun x => x) (-1.7e308) 1.7e308 1) as (r & l) eqn:E. cbn [snd].
  vm_compute in E. injection E as _ <-. cbn [In]. auto.
Qed.
Print Assumptions C47_binary64_refuted.

(** ** C79 *)

(** A sign change is not always found: here of x - 1 limited to -1 and 1, on an
    interval that is large against the zero. *)
Definition slope (x : float) : float := nmax (nmin (x - 1) 1) (-1).
Theorem C79_refuted : fst (solve slope 0 1e300 1e-3) = NotConverged /\ slope 0 = -1 /\ slope 1e300 = 1 /\ slope 1 = 0.
Proof. repeat split; vm_compute; reflexivity. Qed.
Print Assumptions C79_refuted.
