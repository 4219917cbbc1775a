(** * The properties of the table interpolators *)
From Coq Require Import Floats Reals Lra Lia List Bool ZArith.
From Verif Require Import Num Ord Round Loops MsgQueue MathUtil Interp Spec_Interp InterpFacts BilinearFacts.
Import ListNotations.
Local Open Scope nat_scope.

(** A table from a list. *)
Definition tab {T} {N : Num T} (l : list T) : nat -> T := fun i => nth i l n0.

Lemma F2_length {A B} (P : A -> B -> Prop) l l' : Forall2 P l l' -> length l = length l'.
Proof. induction 1; cbn; congruence. Qed.
Lemma F2_impl {A B} (P Q : A -> B -> Prop) l l' : (forall a b, P a b -> Q a b) -> Forall2 P l l' -> Forall2 Q l l'.
Proof. intros H F. induction F; constructor; auto. Qed.

(** ** C44 *)

Definition plain {T} {N : Num T} (x : nat -> T) (n : nat) (lo hi : T) : Prop :=
  no_nan n x /\ nnan lo = false /\ nnan hi = false.

Lemma with_same {T} (o : Lin T) : lin_with_i o (l_i o) = o.
Proof. now destruct o. Qed.

(** After a successful initialisation the answers are a function of the argument
    alone, whatever was asked before.  The number type is the reals or binary64. *)
Theorem C44_history_free : forall (T : Type) (N : Num T) (V : NumVal T) (o o' : Lin T) x z n lo hi,
  lin_init o x z n lo hi = Ret (o', true) -> plain x n lo hi -> l_i o + 1 < n ->
  exists f : T -> T, forall xs, Forall (fun a => nnan a = false) xs ->
    exists o'', lin_gets o' xs = Ret (o'', map f xs).
Proof.
  intros T N V o o' x z n lo hi E (NN & Nl & Nh) Hi.
  pose proof (init_ok _ _ _ _ _ _ _ E NN Nl Nh Hi) as Ok.
  destruct (gets_ok o' Ok) as (f & _ & G). exists f. intros xs F.
  destruct (G (l_i o') xs) as (i' & _ & R); [apply Ok | exact F |].
  rewrite with_same in R. eauto.
Qed.
Print Assumptions C44_history_free.

(** Over the reals each answer is the value of the piecewise linear function through
    the points passed in, at the argument limited to the range, and there is only one
    such value. *)
Theorem C44_interpolant : forall (o o' : Lin R) (x z : nat -> R) n lo hi,
  lin_init o x z n lo hi = Ret (o', true) -> plain x n lo hi -> l_i o + 1 < n ->
  forall xs, exists o'' vs, lin_gets o' xs = Ret (o'', vs) /\
    Forall2 (fun a v => forall w, on_segment n x z (clip lo a hi) w <-> w = v) xs vs.
Proof.
  intros o o' x z n lo hi E (NN & Nl & Nh) Hi xs.
  pose proof (init_ok _ _ _ _ _ _ _ E NN Nl Nh Hi) as Ok.
  destruct (init_stored _ _ _ _ _ _ _ E NN Nl Nh) as (_ & _ & En & Ln & _ & El & Eh & Lt & C1 & C2 & St).
  destruct (gets_ok o' Ok) as (f & F & G).
  destruct (G (l_i o') xs) as (i' & _ & R); [apply Ok | now apply Forall_forall; intros; apply R_nan |].
  rewrite with_same in R. exists (lin_with_i o' i'), (map f xs). split; [exact R|]. clear R G.
  assert (P : forall a, on_segment n x z (clip lo a hi) (f a)).
  { intro a. destruct (F a (R_nan a)) as (i & Ci & ->). rewrite En, limit_R, El, Eh in *.
    assert (S : on_segment n (l_x o') (l_z o') (clip lo a hi) (lin_formula (l_x o') (l_z o') i (clip lo a hi))).
    { destruct Ok as (_ & A & _). rewrite En in A. pose proof (clip_in lo a hi _ _ Lt C1 C2) as (B1 & B2).
      now apply cell_on_segment. }
    destruct St as [(_ & X & Z)|(_ & X & Z)]; rewrite X, Z in *; [exact S|]. apply on_segment_rev. exact S. }
  induction xs as [|a xs IH]; cbn [map]; constructor; [|exact IH].
  intro w. split; [|intros ->; apply P]. intro Q.
  eapply on_segment_unique; [|exact Q | apply P]. destruct St as [(D & _)|(D & _)]; auto.
Qed.
Print Assumptions C44_interpolant.

Definition rx : nat -> R := fun i => INR i.
Definition rz : nat -> R := fun i => (INR i * INR i)%R.

Lemma ex_lin : exists o', lin_init lin_new rx rz 3 0%R 2%R = Ret (o', true) /\ plain rx 3 0%R 2%R /\
  (descending 3 (fun i => rx (2 - i)%nat)).
Proof.
  assert (N : forall n, no_nan n rx) by (intro; apply R_no_nan).
  eexists. split; [|split].
  - unfold lin_init, ordered, ordered_from, read, rx. cbn [Nat.ltb Nat.leb Nat.sub Nat.add negb orb bindO]. rnum.
    change (INR 0) with 0%R. change (INR 1) with 1%R. change (INR 2) with (1 + 1)%R.
    assert (He : (Reps < 1)%R) by (pose proof Reps_small; lra).
    rewrite (Rleb_false 2 0) by lra. rewrite (Rleb_false 1 0) by lra. rewrite (Rleb_true 0 1) by lra.
    rewrite (Rleb_false (1 + 1) 1) by lra. cbn [andb].
    rewrite (Rltb_false (Rabs (0 - 1)) Reps) by (rewrite Rabs_left by lra; lra).
    cbn [bindO negb]. rewrite (Rltb_false 1 0) by lra. cbn [Nat.ltb Nat.leb bindO].
    change (INR 0) with 0%R. change (INR 2) with (1 + 1)%R.
    rewrite (Rltb_false 0 0) by lra. rewrite (Rltb_false (1 + 1) 2) by lra. cbn [orb]. reflexivity.
  - repeat split; auto using R_nan.
  - intros i Hi. unfold rx. cbn. destruct i as [|[|i]]; [cbn; lra | cbn; lra | lia].
Qed.
Example C44_nonvacuous : exists o', lin_init lin_new rx rz 3 0%R 2%R = Ret (o', true) /\ plain rx 3 0%R 2%R /\
  exists o'' v, lin_gets o' [(3 / 2)%R] = Ret (o'', [v]) /\ v = (5 / 2)%R.
Proof.
  destruct ex_lin as (o' & E & P & _). exists o'. split; [exact E|]. split; [exact P|].
  destruct (C44_interpolant _ _ _ _ _ _ _ E P ltac:(cbn; lia) [(3 / 2)%R]) as (o'' & vs & G & F).
  inversion F as [|? v ? ? A B]; subst. inversion B; subst. exists o'', v. split; [exact G|]. symmetry. apply A.
  exists 1. split; [lia|]. unfold clip, rx, rz. cbn [Nat.add]. change (INR 2) with (1 + 1)%R. change (INR 1) with 1%R.
  rewrite (Rmin_left (3 / 2)) by lra. rewrite Rmax_left by lra. rewrite Rmin_left, Rmax_right by lra. lra.
Qed.

(** At a point of the table the answer is its value; everywhere it is between the
    values of two neighbouring points around the argument. *)
Theorem C44_points : forall (o o' : Lin R) (x z : nat -> R) n lo hi k,
  lin_init o x z n lo hi = Ret (o', true) -> plain x n lo hi -> l_i o + 1 < n ->
  k < n -> (lo <= x k <= hi)%R ->
  forall o1 vs xs, lin_gets o' xs = Ret (o1, vs) -> exists o'', lin_get o1 (x k) = Ret (o'', z k).
Proof.
  intros o o' x z n lo hi k E P Hi Lk Rk o1 vs xs G.
  destruct (C44_interpolant _ _ _ _ _ _ _ E P Hi (xs ++ [x k])) as (o'' & ws & G' & F).
  assert (Ap : forall (a : list R) (o : Lin R) b, lin_gets o (a ++ b) =
    let! (o, v) := lin_gets o a in let! (o, w) := lin_gets o b in Ret (o, v ++ w)).
  { clear. induction a as [|c a IH]; intros o b; cbn [lin_gets app bindO].
    - destruct (lin_gets o b) as [[q w]| |]; reflexivity.
    - destruct (lin_get o c) as [[q w]| |]; cbn [bindO]; [|reflexivity|reflexivity].
      rewrite IH. destruct (lin_gets q a) as [[q' w']| |]; cbn [bindO]; [|reflexivity|reflexivity].
      destruct (lin_gets q' b) as [[q'' w'']| |]; reflexivity. }
  rewrite Ap, G in G'. cbn [bindO lin_gets] in G'.
  destruct (lin_get o1 (x k)) as [[q w]| |]; cbn [bindO] in G'; try congruence.
  exists q. f_equal. f_equal.
  assert (Ew : ws = vs ++ [w]) by congruence. subst ws.
  assert (Lv : length vs = length xs).
  { apply F2_length in F. rewrite !app_length in F. cbn in F. lia. }
  assert (F2 : Forall2 (fun a v => forall w, on_segment n x z (clip lo a hi) w <-> w = v) [x k] [w]).
  { clear -F Lv. revert vs Lv F. induction xs as [|a xs IH]; intros [|v vs] L F; cbn in L; try lia; [exact F|].
    inversion F; subst. apply (IH vs); [lia | assumption]. }
  inversion F2 as [|? ? ? ? A B]; subst. symmetry. apply A. rewrite clip_id by exact Rk.
  apply on_segment_point; [|exact Lk].
  destruct P as (NN & Nl & Nh). destruct (init_stored _ _ _ _ _ _ _ E NN Nl Nh) as (_ & _ & _ & Ln & _). exact Ln.
Qed.
Print Assumptions C44_points.

Theorem C44_between : forall (o o' : Lin R) (x z : nat -> R) n lo hi,
  lin_init o x z n lo hi = Ret (o', true) -> plain x n lo hi -> l_i o + 1 < n ->
  forall xs, exists o'' vs, lin_gets o' xs = Ret (o'', vs) /\
    Forall2 (fun a v => exists i, i + 1 < n /\
      (Rmin (x i) (x (i + 1)%nat) <= clip lo a hi <= Rmax (x i) (x (i + 1)%nat))%R /\
      (Rmin (z i) (z (i + 1)%nat) <= v <= Rmax (z i) (z (i + 1)%nat))%R) xs vs.
Proof.
  intros o o' x z n lo hi E P Hi xs.
  destruct (C44_interpolant _ _ _ _ _ _ _ E P Hi xs) as (o'' & vs & G & F). exists o'', vs. split; [exact G|].
  destruct P as (NN & Nl & Nh).
  destruct (init_stored _ _ _ _ _ _ _ E NN Nl Nh) as (_ & _ & _ & _ & _ & _ & _ & _ & _ & _ & St).
  eapply F2_impl; [|exact F]. cbv beta. intros a v H. apply on_segment_between; [|now apply H].
  destruct St as [(D & _)|(D & _)]; auto.
Qed.
Print Assumptions C44_between.

(** In either number type a table in descending order is kept as the same table in
    ascending order. *)
Theorem C44_descending : forall (T : Type) (N : Num T) (V : NumVal T) (o o1 o2 : Lin T) x z n lo hi,
  lin_init o x z n lo hi = Ret (o1, true) -> plain x n lo hi -> descending n x ->
  lin_init o (fun i => x (n - i - 1)) (fun i => z (n - i - 1)) n lo hi = Ret (o2, true) -> o1 = o2.
Proof.
  intros T N V o o1 o2 x z n lo hi E1 (NN & Nl & Nh) D E2.
  destruct (init_stored _ _ _ _ _ _ _ E1 NN Nl Nh) as (A & B & C & L & F & G & H & _ & _ & _ & St).
  destruct (init_stored _ _ _ _ _ _ _ E2 (rev_nan _ _ NN) Nl Nh) as (A' & B' & C' & _ & F' & G' & H' & _ & _ & _ & St').
  destruct St as [(As & _)|(_ & X & Z)].
  { specialize (As 0 ltac:(lia)). specialize (D 0 ltac:(lia)). cbn in As, D. lra. }
  destruct St' as [(_ & X' & Z')|(Ds & _)].
  - destruct o1 as [p1 p2 p3 p4 p5 p6 p7 p8], o2 as [q1 q2 q3 q4 q5 q6 q7 q8]. cbn [l_alloc l_x l_z l_n l_i l_min l_max l_flag] in *. congruence.
  - apply rev_asc in D. specialize (Ds 0 ltac:(lia)). specialize (D 0 ltac:(lia)). cbn [Nat.add] in Ds, D. lra.
Qed.
Print Assumptions C44_descending.

(** In either number type, in one cell and without overflow, a larger argument gives
    a value that is not nearer to the value at the start of the cell, and the value at
    the start of a cell is met exactly. *)
Theorem C44_monotone : forall (T : Type) (N : Num T) (V : NumVal T) (X Z : nat -> T) i x x',
  (val (X i) < val (X (i + 1)%nat))%R -> (val (X i) <= val x <= val x')%R -> nfin x = true ->
  no_overflow X Z i x' ->
  ((val (Z i) <= val (Z (i + 1)%nat))%R ->
     (val (Z i) <= val (lin_formula X Z i x) <= val (lin_formula X Z i x'))%R) /\
  ((val (Z (i + 1)%nat) <= val (Z i))%R ->
     (val (lin_formula X Z i x') <= val (lin_formula X Z i x) <= val (Z i))%R).
Proof. intros T N V X Z i x x' A (B & C) D E. now apply formula_mono. Qed.
Print Assumptions C44_monotone.

Theorem C44_exact_start : forall (T : Type) (N : Num T) (V : NumVal T) (X Z : nat -> T) i,
  (val (X i) < val (X (i + 1)%nat))%R -> no_overflow X Z i (X i) -> val (lin_formula X Z i (X i)) = val (Z i).
Proof. intros T N V X Z i A (B & C & D & E & F & G & H & _). now apply formula_point. Qed.
Print Assumptions C44_exact_start.

Local Open Scope float_scope.
Example C44_exact_start_nonvacuous :
  let X := tab [0; 1] in let Z := tab [-1; -0.2] in
  no_overflow (T := float) X Z 0 0.5 /\ (val (X 0%nat) < val (X 1%nat))%R.
Proof.
  cbv zeta. split; [repeat split; vm_compute; reflexivity|].
  assert (H : (tab [0; 1] 0%nat <~ tab [0; 1] 1%nat) = true) by (vm_compute; reflexivity).
  rewrite val_lt in H by (vm_compute; reflexivity).
  match type of H with Rltb ?a ?b = true => destruct (Rltb_spec a b) as [L|L]; [exact L | discriminate H] end.
Qed.

(** With binary64 the last point of a table is not met, and the answer is not between
    the neighbouring values: from (0, -1) and (1, -0.2) the answer at 1 is above -0.2. *)
Theorem C44_last_point_refuted : exists (x z : nat -> float) (o' o'' : Lin float) v,
  plain x 2 0 1 /\ lin_init lin_new x z 2 0 1 = Ret (o', true) /\ lin_get o' (x 1%nat) = Ret (o'', v) /\
  (z 0%nat <~ z 1%nat) = true /\ (z 1%nat <~ v) = true.
Proof.
  set (x := tab [0; 1]). set (z := tab [-1; -0.2]).
  exists x, z, (mkLin true x z 2 0 0 1 true), (lin_with_i (mkLin true x z 2 0 0 1 true) 0),
    (lin_formula x z 0 1).
  split; [|split; [|split; [|split]]]; try (vm_compute; reflexivity).
  split; [|split]; try (vm_compute; reflexivity).
  intros i Hi. destruct i as [|[|i]]; [vm_compute; reflexivity | vm_compute; reflexivity | lia].
Qed.
Print Assumptions C44_last_point_refuted.

(** ** C45 *)

(** With no NaN an accepted table is strictly monotone, and
    no divisor is zero, in either number type. *)
Theorem C45_strict : forall (T : Type) (N : Num T) (V : NumVal T) (o o' : Lin T) x z n lo hi,
  lin_init o x z n lo hi = Ret (o', true) -> no_nan n x -> nnan lo = false -> nnan hi = false ->
  (ascending n x \/ descending n x) /\ ascending n (l_x o') /\
  (all_fin n x -> forall i, (i + 1 < n)%nat -> (val (l_x o' (i + 1)%nat -~ l_x o' i) <> 0)%R).
Proof.
  intros T N V o o' x z n lo hi E NN Nl Nh.
  destruct (init_stored _ _ _ _ _ _ _ E NN Nl Nh) as (_ & _ & _ & _ & _ & _ & _ & _ & _ & _ & St).
  assert (A : ascending n (l_x o') /\ (all_fin n x -> all_fin n (l_x o'))).
  { destruct St as [(D & X & _)|(D & X & _)]; rewrite X; [auto|]. split; [now apply rev_asc|].
    intros F i Hi. apply F. lia. }
  destruct A as (A & Fi). split; [|split; [exact A|]].
  - destruct St as [(D & _)|(D & _)]; auto.
  - intros F i Hi. specialize (Fi F). pose proof (gap_pos (l_x o' i) (l_x o' (i + 1)%nat) (Fi i ltac:(lia)) (Fi (i + 1)%nat ltac:(lia)) (A i Hi)) as G.
    intro Q. rewrite Q in G. lra.
Qed.
Print Assumptions C45_strict.

Example C45_nonvacuous : exists o' : Lin float,
  lin_init lin_new (tab [0; 1; 4]) (tab [2; 3; 5]) 3 0 4 = Ret (o', true).
Proof. eexists. vm_compute. reflexivity. Qed.

(** A NaN passes every check.  In the table it makes the answers NaN; as a limit it
    lets two equal abscissas through, and the answer is the quotient of zeros. *)
Theorem C45_nan_refuted :
  (exists (x z : nat -> float) (o' o'' : Lin float) v,
     lin_init lin_new x z 3 0 4 = Ret (o', true) /\ nnan (x 1%nat) = true /\
     lin_get o' 2 = Ret (o'', v) /\ nnan v = true) /\
  (exists (x z : nat -> float) (o' o'' : Lin float) v,
     lin_init lin_new x z 2 nan 1 = Ret (o', true) /\ x 0%nat = 1 /\ x 1%nat = 1 /\ z 0%nat = 0 /\ z 1%nat = 5 /\
     (l_x o' 1%nat -~ l_x o' 0%nat) = 0 /\ lin_get o' 1 = Ret (o'', v) /\ nnan v = true).
Proof.
  split.
  - set (x := tab [0; nan; 4]). set (z := tab [0; 1; 4]).
    exists x, z, (mkLin true x z 3 0 0 4 true), (lin_with_i (mkLin true x z 3 0 0 4 true) 0), (lin_formula x z 0 2).
    split; [|split; [|split]]; vm_compute; reflexivity.
  - set (x := tab [1; 1]). set (z := tab [0; 5]).
    exists x, z, (mkLin true x z 2 0 nan 1 true), (lin_with_i (mkLin true x z 2 0 nan 1 true) 0), (lin_formula x z 0 1).
    repeat split; vm_compute; reflexivity.
Qed.
Print Assumptions C45_nan_refuted.

(** ** C46 and C73 *)
Local Open Scope nat_scope.

Lemma bil_with_same {T} (o : Bil T) : bil_with_ij o (b_i o) (b_j o) = o.
Proof. now destruct o. Qed.

Lemma bil_run junk o (x y z : nat -> R) m n lox hix loy hiy o' :
  bil_init junk o x y z m n lox hix loy hiy = Ret (o', true) -> turnable m x -> turnable n y ->
  forall ps i j, i + 1 < m -> j + 1 < n -> exists i' j' vs, i' + 1 < m /\ j' + 1 < n /\
    bil_gets (bil_with_ij o' i j) ps = Ret (bil_with_ij o' i' j', vs) /\
    Forall2 (fun p v => forall w,
      on_patch m n x y (fun i j => z (i * n + j)) (clip lox (fst p) hix) (clip loy (snd p) hiy) w <-> w = v) ps vs.
Proof.
  intros E Tx Ty.
  assert (Ok : bil_ok o' /\ bil_ok_y o') by (eapply bil_init_ok; [exact E | | | | | |]; try apply R_nan; apply R_no_nan).
  destruct Ok as (Ok & OkY).
  destruct (bil_init_inv _ _ _ _ _ _ _ _ _ _ _ _ E) as (Lm & Ln & _ & _ & _ & _ & _ & _ & _ & _ & EO).
  assert (Em : b_m o' = m /\ b_n o' = n /\ b_minx o' = lox /\ b_maxx o' = hix /\ b_miny o' = loy /\ b_maxy o' = hiy)
    by (rewrite EO; repeat split).
  destruct Em as (Em & En & E1 & E2 & E3 & E4). clear EO.
  assert (Ax : ascending m x \/ descending m x) by (destruct Tx as [|(? & _)]; auto).
  assert (Ay : ascending n y \/ descending n y) by (destruct Ty as [|(? & _)]; auto).
  induction ps as [|(a & b) ps IH]; intros i j Hi Hj; cbn [bil_gets].
  - exists i, j, []. repeat split; auto.
  - assert (Ok1 : bil_ok (bil_with_ij o' i j)) by (apply with_ij_ok; [exact Ok | lia | lia]).
    destruct (bil_get_ok (bil_with_ij o' i j) a b Ok1 OkY (R_nan _) (R_nan _)) as (i1 & j1 & Hi1 & Hj1 & Bi & Bj & G).
    rewrite G. cbn [bindO].
    cbn [b_rows b_x b_y b_z b_m b_n b_i b_j b_minx b_maxx b_miny b_maxy bil_with_ij] in Hi1, Hj1, Bi, Bj |- *.
    rewrite E1, E2, E3, E4, !limit_R in *. rewrite Em, En in *.
    destruct (IH i1 j1 Hi1 Hj1) as (i2 & j2 & vs & Hi2 & Hj2 & Gs & F).
    unfold bil_with_ij in Gs |- *. cbn [b_rows b_x b_y b_z b_m b_n b_i b_j b_minx b_maxx b_miny b_maxy b_flag].
    rewrite E1, E2, E3, E4, Em, En in *. rewrite Gs. cbn [bindO].
    eexists i2, j2, (_ :: vs). split; [exact Hi2|]. split; [exact Hj2|]. split; [reflexivity|].
    constructor; [|exact F]. cbn [fst snd]. intro w.
    assert (P : on_patch m n x y (fun i j => z (i * n + j)) (clip lox a hix) (clip loy b hiy)
                  (bil_formula (b_x o') (b_y o') (b_z o') i1 j1 (clip lox a hix) (clip loy b hiy))).
    { eapply stored_patch; [exact E | exact Tx | exact Ty |]. destruct Ok as (_ & AX & _ & AY & _).
      rewrite Em in AX. rewrite En in AY. now apply patch_formula. }
    split; [|intros ->; exact P]. intro Q. eapply on_patch_unique; [exact Ax | exact Ay | exact Q | exact P].
Qed.

(** Over the reals the answers for a table in ascending order, whatever was asked
    before, are those of the bilinear interpolant, which has one value. *)
Theorem C73_interpolant : forall junk o (x y z : nat -> R) m n lox hix loy hiy o',
  bil_init junk o x y z m n lox hix loy hiy = Ret (o', true) -> ascending m x -> ascending n y ->
  forall ps, exists o'' vs, bil_gets o' ps = Ret (o'', vs) /\
    Forall2 (fun p v => forall w,
      on_patch m n x y (fun i j => z (i * n + j)) (clip lox (fst p) hix) (clip loy (snd p) hiy) w <-> w = v) ps vs.
Proof.
  intros junk o x y z m n lox hix loy hiy o' E Ax Ay ps.
  destruct (bil_init_inv _ _ _ _ _ _ _ _ _ _ _ _ E) as (Lm & Ln & _ & _ & _ & _ & _ & _ & _ & _ & EO).
  destruct (bil_run _ _ _ _ _ _ _ _ _ _ _ _ E (or_introl Ax) (or_introl Ay) ps 0 0) as (i & j & vs & _ & _ & G & F); try lia.
  exists (bil_with_ij o' i j), vs. split; [|exact F]. rewrite <- G. f_equal. rewrite EO. reflexivity.
Qed.
Print Assumptions C73_interpolant.

(** The same for tables with a descending abscissa, when it has an odd length. *)
Theorem C46_odd : forall junk o (x y z : nat -> R) m n lox hix loy hiy o',
  bil_init junk o x y z m n lox hix loy hiy = Ret (o', true) ->
  ascending m x \/ (descending m x /\ Nat.odd m = true) ->
  ascending n y \/ (descending n y /\ Nat.odd n = true) ->
  forall ps, exists o'' vs, bil_gets o' ps = Ret (o'', vs) /\
    Forall2 (fun p v => forall w,
      on_patch m n x y (fun i j => z (i * n + j)) (clip lox (fst p) hix) (clip loy (snd p) hiy) w <-> w = v) ps vs.
Proof.
  intros junk o x y z m n lox hix loy hiy o' E Ax Ay ps.
  destruct (bil_init_inv _ _ _ _ _ _ _ _ _ _ _ _ E) as (Lm & Ln & _ & _ & _ & _ & _ & _ & _ & _ & EO).
  destruct (bil_run _ _ _ _ _ _ _ _ _ _ _ _ E Ax Ay ps 0 0) as (i & j & vs & _ & _ & G & F); try lia.
  exists (bil_with_ij o' i j), vs. split; [|exact F]. rewrite <- G. f_equal. rewrite EO. reflexivity.
Qed.
Print Assumptions C46_odd.

(** An accepted table without NaN is in one of the orders. *)
Theorem C46_order : forall (T : Type) (N : Num T) (V : NumVal T) junk (o o' : Bil T) x y z m n lox hix loy hiy,
  bil_init junk o x y z m n lox hix loy hiy = Ret (o', true) ->
  no_nan m x -> no_nan n y -> nnan lox = false -> nnan hix = false -> nnan loy = false -> nnan hiy = false ->
  (ascending m x \/ descending m x) /\ (ascending n y \/ descending n y).
Proof.
  intros T N V junk o o' x y z m n lox hix loy hiy E Nx Ny N1 N2 N3 N4.
  destruct (bil_init_inv _ _ _ _ _ _ _ _ _ _ _ _ E) as (Lm & Ln & O1 & O2 & _).
  destruct (bil_init_two _ _ _ _ _ _ _ _ _ _ _ _ E Nx Ny N1 N2 N3 N4) as (A & B).
  split; apply ordered_either; auto.
Qed.
Print Assumptions C46_order.

(** For every table of an even number of rows in descending order the answer at a
    point of the row after the middle is the value of the row before the middle. *)
Theorem C46_even_wrong_row : forall junk o (x y z : nat -> R) m n lox hix loy hiy o' j,
  bil_init junk o x y z m n lox hix loy hiy = Ret (o', true) ->
  Nat.even m = true -> descending m x -> ascending n y -> j < n ->
  (lox <= x (m / 2)%nat <= hix)%R -> (loy <= y j <= hiy)%R ->
  exists o'', bil_get o' (x (m / 2)) (y j) = Ret (o'', z ((m / 2 - 1) * n + j)).
Proof. intros. eapply even_wrong; eauto. Qed.
Print Assumptions C46_even_wrong_row.

Definition float_get2 (x y z : list float) (m n : nat) (lox hix loy hiy : float) (ps : list (float * float)) : option (list float) :=
  match bil_init (fun _ => 0%float) bil_new (tab x) (tab y) (tab z) m n lox hix loy hiy with
  | Ret (o, true) => match bil_gets o ps with Ret (_, vs) => Some vs | _ => None end
  | _ => None
  end.

Local Open Scope float_scope.
(** The same points, once descending in the first variable and once ascending, give
    different answers; so for the second variable. *)
Theorem C46_refuted :
  float_get2 [1; 0] [0; 1] [10; 11; 20; 21] 2 2 0 1 0 1 [(0, 0)] = Some [10] /\
  float_get2 [0; 1] [0; 1] [20; 21; 10; 11] 2 2 0 1 0 1 [(0, 0)] = Some [20] /\
  float_get2 [0; 1] [1; 0] [10; 11; 20; 21] 2 2 0 1 0 1 [(0, 0)] = Some [10] /\
  float_get2 [0; 1] [0; 1] [11; 10; 21; 20] 2 2 0 1 0 1 [(0, 0)] = Some [11].
Proof. repeat split; vm_compute; reflexivity. Qed.
Print Assumptions C46_refuted.

(** An odd length, in both variables. *)
Example C46_nonvacuous :
  float_get2 [2; 1; 0] [2; 1; 0] [1; 2; 3; 4; 5; 6; 7; 8; 9] 3 3 0 2 0 2 [(0, 0); (0.5, 2); (2, 2); (0, 0)]
  = Some [9; 5.5; 1; 9].
Proof. vm_compute. reflexivity. Qed.

(** In binary64 the answer for a point on the border of two cells depends on the cell
    of the call before. *)
Theorem C73_binary64_refuted :
  float_get2 [0; 1; 4] [0; 1] [1; 1; 0.3; 0.3; 1; 1] 3 2 0 4 0 1 [(0.5, 0); (1, 0); (3, 0); (1, 0)] <> None /\
  exists a b c d, float_get2 [0; 1; 4] [0; 1] [1; 1; 0.3; 0.3; 1; 1] 3 2 0 4 0 1 [(0.5, 0); (1, 0); (3, 0); (1, 0)]
    = Some [a; b; c; d] /\ PrimFloat.eqb b d = false.
Proof. split; [vm_compute; discriminate|]. eexists _, _, _, _. split; [vm_compute; reflexivity | vm_compute; reflexivity]. Qed.
Print Assumptions C73_binary64_refuted.

(** ** C74 *)

(** The linear interpolator says it is initialised exactly when its initialisation
    succeeded. *)
Theorem C74_linear : forall (T : Type) (N : Num T) (o o' : Lin T) x z n lo hi b,
  lin_init o x z n lo hi = Ret (o', b) -> l_flag o' = b.
Proof.
  intros T N o o' x z n lo hi b E. unfold lin_init in E.
  repeat match type of E with
  | Ret (_, _) = Ret (_, _) => assert (X := E); clear E
  | (if ?c then _ else _) = _ => destruct c
  | (let! _ := ?c in _) = _ => destruct c; cbn [bindO] in E; try discriminate E
  end;
  match goal with X : Ret (?q, _) = Ret (o', _) |- _ => assert (o' = q) by congruence; assert (l_flag q = b) by (cbn; congruence) end;
  congruence.
Qed.
Print Assumptions C74_linear.

(** The bilinear interpolator never does. *)
Theorem C74_bilinear_never : forall (T : Type) (N : Num T) junk (o o' : Bil T) x y z m n lox hix loy hiy b,
  bil_init junk o x y z m n lox hix loy hiy = Ret (o', b) -> b_flag o' = false.
Proof.
  intros T N junk o o' x y z m n lox hix loy hiy b E. unfold bil_init, bil_cleanup in E.
  repeat match type of E with
  | Ret (_, _) = Ret (_, _) => assert (X := E); clear E
  | (if ?c then _ else _) = _ => destruct c
  | bindO (if ?c then _ else _) _ = _ => destruct c; cbn [bindO] in E; try discriminate E
  | (let! _ := ?c in _) = _ => destruct c; cbn [bindO] in E; try discriminate E
  end;
  match goal with X : Ret (?q, _) = Ret (o', _) |- _ => assert (o' = q) by congruence end;
  subst o'; reflexivity.
Qed.
Print Assumptions C74_bilinear_never.

Theorem C74_bilinear_refuted : exists (o' : Bil float),
  bil_init (fun _ => 0) bil_new (tab [0; 1]) (tab [0; 1]) (tab [1; 2; 3; 4]) 2 2 0 1 0 1 = Ret (o', true) /\
  b_flag o' = false.
Proof. eexists. split; [vm_compute; reflexivity | reflexivity]. Qed.
Print Assumptions C74_bilinear_refuted.

(** ** C75 *)

(** An object that was never initialised, or whose last initialisation succeeded, can
    be destroyed. *)
Theorem C75_destroy : forall (T : Type) (N : Num T),
  bil_destroy (bil_new : Bil T) = Ret tt /\
  forall junk (o o' : Bil T) x y z m n lox hix loy hiy ps o'' vs,
    bil_init junk o x y z m n lox hix loy hiy = Ret (o', true) -> bil_gets o' ps = Ret (o'', vs) ->
    bil_destroy o'' = Ret tt.
Proof.
  intros T N. split; [reflexivity|]. intros junk o o' x y z m n lox hix loy hiy ps o'' vs E G.
  destruct (bil_init_inv _ _ _ _ _ _ _ _ _ _ _ _ E) as (_ & _ & _ & _ & _ & _ & _ & _ & _ & _ & EO).
  assert (H : b_rows o' = b_m o') by (rewrite EO; reflexivity). clear E EO.
  assert (K : b_rows o'' = b_m o'').
  { revert o' H vs G. induction ps as [|(a & b) ps IH]; intros o' H vs G; cbn [bil_gets] in G; [congruence|].
    unfold bil_get, bil_evaluate in G. rewrite H, Nat.ltb_irrefl in G.
    repeat match type of G with
    | bindO (bindO ?c _) _ = _ => destruct c; cbn [bindO] in G; try discriminate G
    | bindO ?c _ = _ => destruct c as [(q & w)| |] eqn:Q; cbn [bindO] in G; try discriminate G
    end.
    refine (IH _ _ w (eq_trans Q _)); [exact H | congruence]. }
  unfold bil_destroy, bil_cleanup. rewrite K, Nat.ltb_irrefl. reflexivity.
Qed.
Print Assumptions C75_destroy.

(** After a failed initialisation the destructor deletes rows that were never made,
    or have been deleted: here too few points, a table out of order, and a table that
    does not cover the range. *)
Theorem C75_failed_refuted :
  (exists o', bil_init (fun _ => 0) bil_new (tab [0]) (tab [0; 1]) (tab [1; 2]) 1 2 0 1 0 1 = Ret (o', false) /\
     bil_destroy o' = UB) /\
  (exists o', bil_init (fun _ => 0) bil_new (tab [0; 2; 1]) (tab [0; 1]) (tab [1; 2; 3; 4; 5; 6]) 3 2 0 1 0 1 = Ret (o', false) /\
     bil_destroy o' = UB) /\
  (exists o', bil_init (fun _ => 0) bil_new (tab [0; 1]) (tab [0; 1]) (tab [1; 2; 3; 4]) 2 2 0 1 0 2 = Ret (o', false) /\
     bil_destroy o' = UB).
Proof. repeat split; eexists; (split; [vm_compute; reflexivity | reflexivity]). Qed.
Print Assumptions C75_failed_refuted.

(** ** C76 *)

(** A second initialisation with at least as many points is as good as the first, as
    [C44_history_free] and the others need only that the old cell is in the table.
    With fewer points the old cell is past the end of the new table. *)
Theorem C76_reinit_refuted : exists (o1 o2 o3 : Lin float) v,
  lin_init lin_new (tab [0; 1; 2; 3; 4]) (tab [0; 1; 2; 3; 4]) 5 0 4 = Ret (o1, true) /\
  lin_get o1 3.5 = Ret (o2, v) /\
  lin_init o2 (tab [0; 1]) (tab [5; 6]) 2 0 1 = Ret (o3, true) /\
  lin_get o3 0.5 = UB.
Proof.
  set (x5 := tab [0; 1; 2; 3; 4]). set (x2 := tab [0; 1]). set (z2 := tab [5; 6]).
  exists (mkLin true x5 x5 5 0 0 4 true), (mkLin true x5 x5 5 3 0 4 true), (mkLin true x2 z2 2 3 0 1 true),
    (lin_formula x5 x5 3 3.5).
  repeat split; vm_compute; reflexivity.
Qed.
Print Assumptions C76_reinit_refuted.

(** The old cell matters for nothing else: two objects initialised with one table give
    the same answers, if the old cells are in it. *)
Theorem C76_reinit : forall (T : Type) (N : Num T) (V : NumVal T) (o1 o2 o1' o2' : Lin T) x z n lo hi,
  lin_init o1 x z n lo hi = Ret (o1', true) -> lin_init o2 x z n lo hi = Ret (o2', true) -> plain x n lo hi ->
  (l_i o1 + 1 < n)%nat -> (l_i o2 + 1 < n)%nat ->
  forall xs, Forall (fun a => nnan a = false) xs ->
    exists p1 p2 vs, lin_gets o1' xs = Ret (p1, vs) /\ lin_gets o2' xs = Ret (p2, vs).
Proof.
  intros T N V o1 o2 o1' o2' x z n lo hi E1 E2 (NN & Nl & Nh) H1 H2 xs F.
  pose proof (init_ok _ _ _ _ _ _ _ E1 NN Nl Nh H1) as Ok.
  destruct (init_stored _ _ _ _ _ _ _ E1 NN Nl Nh) as (A & B & C & L & D & G & H & _ & _ & _ & St).
  destruct (init_stored _ _ _ _ _ _ _ E2 NN Nl Nh) as (A' & B' & C' & _ & D' & G' & H' & _ & _ & _ & St').
  assert (Same : o2' = lin_with_i o1' (l_i o2)).
  { assert (X : l_x o2' = l_x o1' /\ l_z o2' = l_z o1').
    { destruct St as [(P & X & Z)|(P & X & Z)], St' as [(P' & X' & Z')|(P' & X' & Z')];
        first [split; congruence
              | exfalso; specialize (P 0%nat ltac:(lia)); specialize (P' 0%nat ltac:(lia)); cbn in P, P'; lra]. }
    destruct X as (X & Z). unfold lin_with_i.
    destruct o2' as [q1 q2 q3 q4 q5 q6 q7 q8]. cbn [l_alloc l_x l_z l_n l_i l_min l_max l_flag] in *. congruence. }
  destruct (gets_ok o1' Ok) as (f & _ & Go).
  destruct (Go (l_i o1') xs) as (i & _ & R1); [apply Ok | exact F |]. rewrite with_same in R1.
  destruct (Go (l_i o2) xs) as (j & _ & R2); [lia | exact F |]. rewrite <- Same in R2. eauto.
Qed.
Print Assumptions C76_reinit.

(** ** C77 *)
Local Open Scope nat_scope.

(** The smallest value found is the smallest of the table; the largest is, when a
    value after the first is not below the first. *)
Theorem C77_range : forall m n (Z : nat -> nat -> R), 0 < m -> 0 < n ->
  (forall i j, i < m -> j < n -> (- 10 ^ 16 < Z i j < 10 ^ 16)%R) ->
  ((exists i j, i < m /\ j < n /\ fst (scan m n Z) = Z i j) /\
   forall i j, i < m -> j < n -> (fst (scan m n Z) <= Z i j)%R) /\
  ((exists i j, i < m /\ j < n /\ 0 < i + j /\ (Z 0%nat 0%nat <= Z i j)%R) ->
   (exists i j, i < m /\ j < n /\ snd (scan m n Z) = Z i j) /\
   forall i j, i < m -> j < n -> (Z i j <= snd (scan m n Z))%R).
Proof.
  intros m n Z Lm Ln B.
  assert (E16 : (ndec 1 16 : R) = (10 ^ 16)%R) by (unfold ndec; cbn [RNum]; unfold Rdec; cbn; lra).
  assert (N16 : (nopp (ndec 1 16) : R) = (- 10 ^ 16)%R) by (rewrite E16; reflexivity).
  destruct (scan_scanned m n Z Ln) as (A & C & D & E); [rewrite E16; now apply B|].
  assert (Bf : forall i j, j < n -> (before m 0 i j <-> i < m)) by (unfold before; lia).
  split; [split|].
  - destruct D as [D|(i & j & Lj & Hb & D)].
    + exfalso. destruct (A 0 0 Ln) as (P & _); [unfold before; lia|]. pose proof (B 0 0 Lm Ln).
      rewrite D, E16 in P. lra.
    + exists i, j. split; [now apply (Bf i j Lj) | auto].
  - intros i j Li Lj. apply A; [exact Lj | now apply Bf].
  - intros (i & j & Li & Lj & Ps & Ge).
    assert (F : (Z 0%nat 0%nat <= snd (scan m n Z))%R) by (apply (C i j); auto; now apply Bf).
    split.
    + destruct E as [E|(a & b & Lb & Hb & E)].
      * exfalso. pose proof (B 0 0 Lm Ln). rewrite E, N16 in F. lra.
      * exists a, b. split; [now apply (Bf a b Lb) | auto].
    + intros a b La Lb. destruct (A a b Lb) as (_ & [Q|Q]); [now apply Bf | exact Q | lra].
Qed.
Print Assumptions C77_range.

Definition rev_new (x y z : list float) (m n : nat) (lox hix loy hiy : float) : option (Bil float) :=
  match bil_init (fun _ => 0%float) bil_new (tab x) (tab y) (tab z) m n lox hix loy hiy with
  | Ret (o, true) => match rev_init o with Ret o => Some o | _ => None end
  | _ => None
  end.

(** A table whose first value is the only largest one: its range ends below it, so a
    value of the table is cut off and the answer is at the wrong end of the line. *)
Local Open Scope float_scope.
Theorem C77_refuted : exists o o' v,
  rev_new [0; 1] [0; 1] [4; 3; 2; 1] 2 2 0 1 0 1 = Some o /\
  b_miny o = 1 /\ b_maxy o = -1e16 /\
  rev_get o 0 3.5 = Ret (o', v) /\ v = 1 /\
  exists o'', bil_get (bil_with_ij (mkBil 2 (tab [0; 1]) (tab [0; 1]) (b_z o) 2 2 0 0 0 1 0 1 false) 0 0) 0 0.5 = Ret (o'', 3.5).
Proof.
  destruct (rev_new [0; 1] [0; 1] [4; 3; 2; 1] 2 2 0 1 0 1) as [o|] eqn:E; [|vm_compute in E; discriminate E].
  exists o, (bil_with_ij o 0 0), 1. vm_compute in E. injection E as <-.
  split; [vm_compute; reflexivity|]. split; [vm_compute; reflexivity|]. split; [vm_compute; reflexivity|].
  split; [vm_compute; reflexivity|]. split; [reflexivity|]. eexists. vm_compute. reflexivity.
Qed.
Print Assumptions C77_refuted.

(** ** C78 *)
Local Open Scope nat_scope.

(** Over the reals, on a table with strictly monotone rows, reverse look-up undoes
    forward look-up, whatever was asked before. *)
Theorem C78_inverse : forall junk o (x y z : nat -> R) m n lox hix loy hiy o1 o2,
  bil_init junk o x y z m n lox hix loy hiy = Ret (o1, true) -> rev_init o1 = Ret o2 ->
  ascending m x -> ascending n y ->
  (forall k, k < m * n -> (- 10 ^ 16 < z k < 10 ^ 16)%R) ->
  (forall i j, i < m -> j + 1 < n -> (z (i * n + j)%nat < z (i * n + (j + 1))%nat)%R) \/
  ((forall i j, i < m -> j + 1 < n -> (z (i * n + (j + 1))%nat < z (i * n + j)%nat)%R) /\
   exists k, 0 < k < m * n /\ (z 0%nat <= z k)%R) ->
  forall ps ts,
    Forall2 (fun p t => on_patch m n x y (fun i j => z (i * n + j)) (clip lox (fst p) hix) t (snd p)) ps ts ->
    exists o', rev_gets o2 ps = Ret (o', ts).
Proof.
  intros junk o x y z m n lox hix loy hiy o1 o2 E Er Ax Ay Bz Mz.
  assert (Ok : bil_ok o1 /\ bil_ok_y o1) by (eapply bil_init_ok; [exact E | | | | | |]; try apply R_nan; apply R_no_nan).
  destruct Ok as (Ok & OkY).
  destruct (bil_init_inv _ _ _ _ _ _ _ _ _ _ _ _ E) as (Lm & Ln & _ & _ & _ & _ & _ & _ & _ & _ & EO).
  assert (S1 : store_x m n x junk (fun i j => z (i * n + j)) = (x, fun i j => z (i * n + j))).
  { unfold store_x. specialize (Ax 0 ltac:(lia)). cbn in Ax. rnum. now rewrite Rltb_false by lra. }
  assert (S2 : store_y m n y junk (fun i j => z (i * n + j)) = (y, fun i j => z (i * n + j))).
  { unfold store_y. specialize (Ay 0 ltac:(lia)). cbn in Ay. rnum. now rewrite Rltb_false by lra. }
  rewrite S1 in EO. cbn [fst snd] in EO. rewrite S2 in EO. cbn [fst snd] in EO.
  unfold rev_init in Er. rewrite EO in Er. cbn [b_rows b_m] in Er. rewrite Nat.ltb_irrefl in Er.
  cbn [b_x b_y b_z b_n b_i b_j b_minx b_maxx] in Er.
  set (Z := fun i j => z (i * n + j)) in *. set (s := scan m n Z) in *.
  assert (E2 : o2 = mkBil m x y Z m n 0 0 lox hix (fst s) (snd s) true) by congruence. clear Er.
  assert (Zb : forall i j, i < m -> j < n -> (- 10 ^ 16 < Z i j < 10 ^ 16)%R) by (intros i j Hi Hj; apply Bz; nia).
  destruct (C77_range m n Z ltac:(lia) ltac:(lia) Zb) as ((_ & Min) & Max). fold s in Min, Max.
  assert (Mx : exists i j, i < m /\ j < n /\ 0 < i + j /\ (Z 0%nat 0%nat <= Z i j)%R).
  { destruct Mz as [Mz|(_ & k & Lk & Ge)].
    - exists 0, 1. repeat split; try lia. specialize (Mz 0 0 ltac:(lia) ltac:(lia)). unfold Z. cbn [Nat.add] in Mz. lra.
    - exists (k / n), (k mod n). pose proof (Nat.div_mod k n ltac:(lia)) as Dm.
      assert (k mod n < n) by (apply Nat.mod_upper_bound; lia).
      split; [apply Nat.div_lt_upper_bound; nia|]. split; [assumption|]. split; [nia|].
      unfold Z. replace (k / n * n + k mod n) with k by nia. exact Ge. }
  destruct (Max Mx) as (_ & Mxx).
  assert (Mr : monotone_rows m n Z) by (destruct Mz as [Mz|(Mz & _)]; [left | right]; exact Mz).
  assert (G : forall ps ts, Forall2 (fun p t => on_patch m n x y Z (clip lox (fst p) hix) t (snd p)) ps ts ->
    forall i j, i + 1 < m -> j + 1 < n -> exists o', rev_gets (bil_with_ij o2 i j) ps = Ret (o', ts)).
  { induction 1 as [|(a & v) t ps ts P F IH]; intros i j Hi Hj; cbn [rev_gets]; [eexists; reflexivity|].
    cbn [fst snd] in P.
    assert (Ok2 : bil_ok (bil_with_ij o2 i j)).
    { apply with_ij_ok; [|rewrite E2; exact Hi | rewrite E2; exact Hj]. rewrite E2.
      destruct Ok as (A1 & A2 & A3 & A4 & A5 & A6 & A7 & A8 & A9 & _ & _ & A12 & A13 & A14). rewrite EO in *.
      unfold bil_ok. cbn [b_rows b_x b_y b_z b_m b_n b_i b_j b_minx b_maxx b_miny b_maxy] in *.
      do 9 (split; [assumption|]). split; [apply R_nan|]. split; [apply R_nan|]. auto. }
    destruct (rev_get_ok (bil_with_ij o2 i j) a t v) as (i' & j' & Hi' & Hj' & Gv).
    - exact Ok2.
    - rewrite E2. exact Mr.
    - rewrite E2. exact P.
    - rewrite E2. cbn [bil_with_ij b_miny b_maxy].
      apply (patch_range m n x y Z (clip lox a hix) t v); auto.
    - rewrite Gv. cbn [bindO]. rewrite E2 in Hi', Hj'. cbn [bil_with_ij b_m b_n] in Hi', Hj'.
      destruct (IH i' j' Hi' Hj') as (o' & Gs). exists o'.
      change (bil_with_ij (bil_with_ij o2 i j) i' j') with (bil_with_ij o2 i' j'). rewrite Gs. reflexivity. }
  intros ps ts F. destruct (G ps ts F 0 0 ltac:(lia) ltac:(lia)) as (o' & R). exists o'. rewrite <- R. f_equal.
  rewrite E2. reflexivity.
Qed.
Print Assumptions C78_inverse.

Example C78_nonvacuous : exists o o' : Bil float,
  rev_new [0; 1]%float [0; 1; 2]%float [1; 2; 4; 2; 4; 6]%float 2 3 0 1 0 2 = Some o /\
  rev_gets o [(0, 3)%float; (1, 2)%float; (0.5, 5)%float] = Ret (o', [1.5; 0; 2]%float).
Proof. eexists _, _. split; [vm_compute; reflexivity | vm_compute; reflexivity]. Qed.

(** The hypotheses of the theorems over the reals are met by the 2 by 2 table of
    0, 1, 2, 3, in both orders of the first variable. *)
Example bilinear_nonvacuous :
  (exists o1 o2, bil_init (fun _ => 0%R) bil_new rx rx rx 2 2 0%R 1%R 0%R 1%R = Ret (o1, true) /\ rev_init o1 = Ret o2 /\
     ascending 2 rx /\ (forall k, k < 2 * 2 -> (- 10 ^ 16 < rx k < 10 ^ 16)%R) /\
     (forall i j, i < 2 -> j + 1 < 2 -> (rx (i * 2 + j)%nat < rx (i * 2 + (j + 1))%nat)%R) /\
     on_patch 2 2 rx rx (fun i j => rx (i * 2 + j)) (clip 0 1 1) (1 / 2) (5 / 2)) /\
  (exists o1, bil_init (fun _ => 0%R) bil_new (fun i => rx (1 - i)) rx rx 2 2 0%R 1%R 0%R 1%R = Ret (o1, true) /\
     descending 2 (fun i => rx (1 - i)) /\ Nat.even 2 = true).
Proof.
  assert (E1 : (INR 1 = 1)%R) by reflexivity. assert (E0 : (INR 0 = 0)%R) by reflexivity.
  split.
  - eexists _, _. split; [|split; [|split; [|split; [|split]]]].
    + unfold bil_init, ordered, ordered_from, store_x, store_y, read, rx.
      cbn [Nat.ltb Nat.leb Nat.sub Nat.add negb orb bindO fst snd b_x b_y b_z]. rnum. rewrite E1, E0.
      rewrite (Rleb_false 1 0) by lra. rewrite (Rltb_false 1 0) by lra. cbn [orb].
      cbn [fst snd]. rewrite ?E0, ?E1.
      rewrite (Rltb_false 0 0) by lra. rewrite (Rltb_false 1 1) by lra. cbn [orb]. reflexivity.
    + reflexivity.
    + intros i Hi. replace i with 0 by lia. unfold rx. cbn. lra.
    + intros k Hk. unfold rx. pose proof (pos_INR k). apply lt_INR in Hk. cbn in Hk. lra.
    + intros i j Hi Hj. unfold rx. apply lt_INR. lia.
    + exists (fun j => (2 + INR j)%R). unfold clip. rewrite Rmin_left, Rmax_left by lra. split.
      * intros j Hj. exists 0. split; [lia|]. unfold rx. cbn [Nat.add Nat.mul]. rewrite E0, E1.
        rewrite Rmin_left, Rmax_right by lra. split; [lra|].
        change (S (S j)) with (2 + j)%nat. rewrite plus_INR. cbn. lra.
      * exists 0. split; [lia|]. unfold rx. cbn [Nat.add]. rewrite E0, E1. rewrite Rmin_left, Rmax_right by lra. lra.
  - eexists. split; [|split; [|reflexivity]].
    + unfold bil_init, ordered, ordered_from, store_x, store_y, read, rx.
      cbn [Nat.ltb Nat.leb Nat.sub Nat.add negb orb bindO fst snd b_x b_y b_z]. rnum. rewrite E1, E0.
      rewrite (Rleb_false 1 0) by lra. rewrite (Rltb_true 0 1) by lra. rewrite (Rltb_false 1 0) by lra. cbn [orb].
      cbn [fst snd Nat.div Nat.divmod Nat.add loop turn_row set1 Nat.eqb Nat.sub]. unfold set1. cbn [Nat.eqb Nat.sub]. rewrite ?E0, ?E1.
      rewrite (Rltb_false 0 0) by lra. rewrite (Rltb_false 1 1) by lra. cbn [orb]. reflexivity.
    + intros i Hi. replace i with 0 by lia. unfold rx. cbn. lra.
Qed.

(** ** C80 *)

(** All gaps of an accepted table but the last are at least DBL_EPSILON, as computed;
    this needs nothing about NaN. *)
Theorem C80_gaps : forall (T : Type) (N : Num T) (o o' : Lin T) x z n lo hi,
  lin_init o x z n lo hi = Ret (o', true) ->
  forall i, i + 2 < n -> (nabs (x i -~ x (i + 1)) <~ neps) = false.
Proof.
  intros T N o o' x z n lo hi E.
  assert (O : ordered n x = Ret true).
  { unfold lin_init in E. destruct (hi <=~ lo); [congruence|]. destruct (n <? 2); [congruence|].
    destruct (ordered n x) as [[|]| |]; cbn [bindO negb] in E; congruence. }
  assert (G : forall cnt k, ordered_from n x k cnt = Ret true ->
    forall i, k <= i < k + cnt -> (nabs (x i -~ x (i + 1)) <~ neps) = false).
  { induction cnt as [|cnt IH]; intros k F i Hi; [lia|]. cbn [ordered_from] in F.
    unfold read in F. destruct (k <? n); cbn [bindO] in F; [|discriminate F].
    destruct (k + 1 <? n); cbn [bindO] in F; [|discriminate F].
    destruct (k + 2 <? n); cbn [bindO] in F; [|discriminate F].
    destruct (_ && _); [discriminate F|]. destruct (_ && _); [discriminate F|].
    destruct (nabs (x k -~ x (k + 1)) <~ neps) eqn:B; [discriminate F|].
    destruct (Nat.eq_dec i k) as [->|D]; [exact B|]. apply (IH (k + 1) F). lia. }
  intros i Hi. apply (G (n - 2) 0 O). lia.
Qed.
Print Assumptions C80_gaps.

(** The last gap is not checked, so the same table is accepted in one order and
    refused in the other. *)
Theorem C80_last_gap_refuted : exists o1 o2 : Lin float,
  lin_init lin_new (tab [-1; 0; 1e-17]%float) (tab [1; 2; 3]%float) 3 (-1)%float 0%float = Ret (o1, true) /\
  lin_init lin_new (tab [1e-17; 0; -1]%float) (tab [3; 2; 1]%float) 3 (-1)%float 0%float = Ret (o2, false).
Proof. eexists _, _. split; vm_compute; reflexivity. Qed.
Print Assumptions C80_last_gap_refuted.
