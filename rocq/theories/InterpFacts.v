(** * Facts about the interpolators *)
From Coq Require Import Floats Reals Lra Lia List Bool ZArith Psatz.
From Verif Require Import Num Ord Round Loops MsgQueue MathUtil Interp Spec_Interp.
Import ListNotations.
Local Open Scope nat_scope.

Lemma read_ok {A} n (f : nat -> A) i : i < n -> read n f i = Ret (f i).
Proof. intro H. unfold read. apply Nat.ltb_lt in H. now rewrite H. Qed.
Lemma read2_ok {A} m n (f : nat -> nat -> A) i j : i < m -> j < n -> read2 m n f i j = Ret (f i j).
Proof. intros H K. unfold read2. apply Nat.ltb_lt in H, K. now rewrite H, K. Qed.

Section Order.
  Context {T : Type} {N : Num T} {V : NumVal T}.

  Lemma asc_lt n (X : nat -> T) : ascending n X -> forall i j, i < j -> j < n -> (val (X i) < val (X j))%R.
  Proof.
    intros A i j H. induction j as [|j IH]; intro L; [lia|].
    specialize (A j). replace (j + 1) with (S j) in A by lia.
    destruct (Nat.eq_dec i j) as [->|D]; [apply A; lia|].
    apply Rlt_trans with (val (X j)); [apply IH; lia | apply A; lia].
  Qed.

  Lemma asc_le n (X : nat -> T) : ascending n X -> forall i j, i <= j -> j < n -> (val (X i) <= val (X j))%R.
  Proof.
    intros A i j H L. destruct (Nat.eq_dec i j) as [->|D]; [lra|].
    apply Rlt_le. apply (asc_lt n); auto. lia.
  Qed.

  (** ** The order check *)

  Lemma ordered_from_spec : forall cnt n (x : nat -> T) i, no_nan n x -> i + cnt + 2 <= n ->
    exists b, ordered_from n x i cnt = Ret b /\
      (b = true -> forall k, i <= k < i + cnt ->
         ((val (x k) < val (x (k + 1)%nat) /\ val (x (k + 1)%nat) < val (x (k + 2)%nat))%R \/
          (val (x (k + 1)%nat) < val (x k) /\ val (x (k + 2)%nat) < val (x (k + 1)%nat))%R)).
  Proof.
    induction cnt as [|cnt IH]; intros n x i NN L; cbn [ordered_from].
    - exists true. split; [reflexivity|]. intros _ k K. lia.
    - rewrite !read_ok by lia. cbn [bindO].
      rewrite !val_le by (apply NN; lia).
      destruct (IH n x (i + 1) NN ltac:(lia)) as (b & E & B). 
      destruct (Rleb_spec (val (x (i + 1))) (val (x i))), (Rleb_spec (val (x (i + 1))) (val (x (i + 2)))),
        (Rleb_spec (val (x i)) (val (x (i + 1)))), (Rleb_spec (val (x (i + 2))) (val (x (i + 1)))); cbn [andb];
        try (exists false; split; [reflexivity | discriminate]); try (exfalso; lra).
      all: destruct (nabs _ <~ neps); [exists false; split; [reflexivity | discriminate]|].
      all: exists b; split; [exact E|]; intros Hb k K; destruct (Nat.eq_dec k i) as [->|D]; [|apply B; [exact Hb | lia]].
      all: lra.
  Qed.

  Lemma ordered_def n (x : nat -> T) : no_nan n x -> 2 <= n -> exists b, ordered n x = Ret b.
  Proof.
    intros NN L. destruct (ordered_from_spec (n - 2) n x 0 NN ltac:(lia)) as (b & E & _). exists b. exact E.
  Qed.

  Lemma ordered_strict n (x : nat -> T) : no_nan n x -> 3 <= n -> ordered n x = Ret true ->
    ascending n x \/ descending n x.
  Proof.
    intros NN L E. destruct (ordered_from_spec (n - 2) n x 0 NN ltac:(lia)) as (b & E' & B).
    unfold ordered in E. assert (b = true) by congruence. specialize (B H). clear H E E' b.
    assert (H0 := B 0 ltac:(lia)). destruct H0 as [(U & _)|(U & _)].
    - left. intros i Hi. induction i as [|i IH]; [exact U|].
      specialize (IH ltac:(lia)). specialize (B i ltac:(lia)). replace (i + 2) with (S i + 1) in B by lia.
      replace (i + 1) with (S i) in * by lia. lra.
    - right. intros i Hi. induction i as [|i IH]; [exact U|].
      specialize (IH ltac:(lia)). specialize (B i ltac:(lia)). replace (i + 2) with (S i + 1) in B by lia.
      replace (i + 1) with (S i) in * by lia. lra.
  Qed.

  (** ** The cell *)

  Definition cell_of (n : nat) (X : nat -> T) (x : T) (c : nat) : Prop :=
    c + 1 < n /\ (c = 0 \/ (val (X c) <= val x)%R) /\ (c = n - 2 \/ (val x < val (X (c + 1)%nat))%R).

  Lemma cell_unique n (X : nat -> T) x c c' : ascending n X -> cell_of n X x c -> cell_of n X x c' -> c = c'.
  Proof.
    intros A.
    assert (H : forall c c', cell_of n X x c -> cell_of n X x c' -> ~ c < c').
    { clear c c'. intros c c' (L & P & Q) (L' & P' & Q') H.
      destruct P' as [P'|P']; [lia|]. destruct Q as [Q|Q]; [lia|].
      pose proof (asc_le n X A (c + 1) c' ltac:(lia) ltac:(lia)). lra. }
    intros H1 H2. pose proof (H _ _ H1 H2). pose proof (H _ _ H2 H1). lia.
  Qed.

  Lemma up_spec n (X : nat -> T) x : no_nan n X -> nnan x = false ->
    forall fuel c, n - 1 - c < fuel -> 1 <= c -> c <= n - 1 -> 2 <= n -> (val (X (c - 1)%nat) <= val x)%R ->
    exists c', up X n x fuel c = Ret c' /\ 1 <= c' /\ c' <= n - 1 /\ (val (X (c' - 1)%nat) <= val x)%R /\
      (c' = n - 1 \/ (val x < val (X c'))%R).
  Proof.
    intros NN Nx. induction fuel as [|fuel IH]; intros c F C1 C2 L B; [lia|]. cbn [up].
    destruct (Nat.ltb_spec c (n - 1)) as [Lt|Ge].
    - rewrite read_ok by lia. cbn [bindO]. rewrite val_lt by (auto; apply NN; lia).
      destruct (Rltb_spec (val x) (val (X c))).
      + exists c. repeat split; auto.
      + apply IH; try lia. replace (c + 1 - 1) with c by lia. lra.
    - exists c. repeat split; auto. left. lia.
  Qed.

  Lemma down_spec n (X : nat -> T) x : no_nan n X -> nnan x = false ->
    forall c, c + 1 < n -> (val x < val (X (c + 1)%nat))%R ->
    exists c', down X n x c = Ret c' /\ c' + 1 < n /\ (c' = 0 \/ (val (X c') <= val x)%R) /\ (val x < val (X (c' + 1)%nat))%R.
  Proof.
    intros NN Nx. induction c as [|c IH]; intros L B; cbn [down].
    - exists 0. repeat split; auto.
    - rewrite read_ok by lia. cbn [bindO]. rewrite val_le by (auto; apply NN; lia).
      destruct (Rleb_spec (val (X (S c))) (val x)).
      + exists (S c). repeat split; auto.
      + apply IH; [lia|]. replace (c + 1) with (S c) by lia. lra.
  Qed.

  Lemma select_spec n (X : nat -> T) x c : ascending n X -> no_nan n X -> nnan x = false -> c + 1 < n ->
    exists c', select_cell x X n c = Ret c' /\ cell_of n X x c'.
  Proof.
    intros A NN Nx L. unfold select_cell. rewrite read_ok by lia. cbn [bindO].
    rewrite val_le by (auto; apply NN; lia). destruct (Rleb_spec (val (X (c + 1)%nat)) (val x)) as [H|H].
    - destruct (up_spec n X x NN Nx (S n) (c + 1)) as (c' & E & B & C & D & F); try lia.
      + replace (c + 1 - 1) with c by lia. specialize (A c L). lra.
      + rewrite E. cbn [bindO]. exists (c' - 1). split; [reflexivity|]. unfold cell_of.
        split; [lia|]. split; [right; exact D|]. destruct F as [F|F]; [left; lia|].
        right. replace (c' - 1 + 1) with c' by lia. exact F.
    - rewrite read_ok by lia. cbn [bindO]. rewrite val_lt by (auto; apply NN; lia).
      destruct (Rltb_spec (val x) (val (X c))) as [K|K]; cbn [andb].
      + destruct (Nat.ltb_spec 0 c) as [P|P].
        * destruct (down_spec n X x NN Nx (c - 1)) as (c' & E & B & C & D); try lia.
          { now replace (c - 1 + 1) with c by lia. }
          exists c'. split; [exact E|]. unfold cell_of. tauto.
        * exists c. split; [reflexivity|]. unfold cell_of. split; [exact L|].
          split; [left; lia | right; lra].
      + exists c. split; [reflexivity|]. unfold cell_of. split; [exact L|]. split; right; lra.
  Qed.
End Order.

Section Linear.
  Context {T : Type} {N : Num T} {V : NumVal T}.

  Lemma limit_val lo x hi : nnan lo = false -> nnan x = false -> nnan hi = false ->
    nnan (limit_range lo x hi) = false /\ val (limit_range lo x hi) = clip (val lo) (val x) (val hi).
  Proof.
    intros A B C. unfold limit_range, nmax, nmin, clip, Rmax, Rmin.
    rewrite (val_lt hi x) by assumption. destruct (Rltb_spec (val hi) (val x)).
    - rewrite val_lt by assumption. destruct (Rltb_spec (val hi) (val lo)); repeat destruct Rle_dec; split; auto; lra.
    - rewrite val_lt by assumption. destruct (Rltb_spec (val x) (val lo)); repeat destruct Rle_dec; split; auto; lra.
  Qed.

  Definition lin_ok (o : Lin T) : Prop :=
    l_alloc o = true /\ ascending (l_n o) (l_x o) /\ no_nan (l_n o) (l_x o) /\ l_i o + 1 < l_n o /\
    nnan (l_min o) = false /\ nnan (l_max o) = false.

  Lemma evaluate_ok o x : lin_ok o -> nnan x = false ->
    exists i, cell_of (l_n o) (l_x o) x i /\
      lin_evaluate o x = Ret (lin_with_i o i, lin_formula (l_x o) (l_z o) i x).
  Proof.
    intros (A & B & C & D & E & F) Nx. unfold lin_evaluate. rewrite A. cbn [negb].
    destruct (select_spec _ _ _ _ B C Nx D) as (i & S & Ci). rewrite S. cbn [bindO].
    destruct Ci as (L & R1). rewrite !read_ok by lia. cbn [bindO]. exists i. split; [split; assumption | reflexivity].
  Qed.

  Lemma with_i_ok o i : lin_ok o -> i + 1 < l_n o -> lin_ok (lin_with_i o i).
  Proof. intros (A & B & C & D & E & F) L. unfold lin_ok, lin_with_i; cbn. repeat split; auto. Qed.

  (** The answer to one call, from the table alone. *)
  Lemma gets_ok o : lin_ok o -> exists f : T -> T,
    (forall x, nnan x = false ->
       exists i, cell_of (l_n o) (l_x o) (limit_range (l_min o) x (l_max o)) i /\
         f x = lin_formula (l_x o) (l_z o) i (limit_range (l_min o) x (l_max o))) /\
    forall i xs, i + 1 < l_n o -> Forall (fun x => nnan x = false) xs ->
      exists i', i' + 1 < l_n o /\ lin_gets (lin_with_i o i) xs = Ret (lin_with_i o i', map f xs).
  Proof.
    intro Ok.
    exists (fun x => match lin_get o x with Ret (_, v) => v | _ => n0 end).
    assert (G : forall i x, i + 1 < l_n o -> nnan x = false ->
       exists c, cell_of (l_n o) (l_x o) (limit_range (l_min o) x (l_max o)) c /\
         lin_get (lin_with_i o i) x = Ret (lin_with_i o c, lin_formula (l_x o) (l_z o) c (limit_range (l_min o) x (l_max o)))).
    { intros i x L Nx. pose proof (with_i_ok o i Ok L) as Ok'.
      destruct Ok as (_ & _ & _ & _ & E & F).
      destruct (limit_val (l_min o) x (l_max o) E Nx F) as (NL & _).
      destruct (evaluate_ok _ _ Ok' NL) as (c & C & Ev). exists c. split; [exact C | exact Ev]. }
    assert (Self : o = lin_with_i o (l_i o)) by (destruct o; reflexivity).
    assert (G0 : forall x, nnan x = false -> exists c, cell_of (l_n o) (l_x o) (limit_range (l_min o) x (l_max o)) c /\
        match lin_get o x with Ret (_, v) => v | _ => n0 end = lin_formula (l_x o) (l_z o) c (limit_range (l_min o) x (l_max o))).
    { intros x Nx. destruct (G (l_i o) x) as (c & C & E); [apply Ok | exact Nx |].
      exists c. split; [exact C|]. rewrite Self at 1. now rewrite E. }
    split; [exact G0|].
    intros i xs L F. revert i L. induction F as [|x xs Nx F IH]; intros i L; cbn [lin_gets map].
    - exists i. split; [exact L | reflexivity].
    - destruct (G i x L Nx) as (c & C & E). rewrite E. cbn [bindO].
      destruct (IH c) as (i' & L' & E'); [apply C|]. rewrite E'. cbn [bindO].
      exists i'. split; [exact L'|].
      destruct (G0 x Nx) as (c' & C' & E2). rewrite E2.
      rewrite (cell_unique _ _ _ c c' ltac:(apply Ok) C C'). reflexivity.
  Qed.

  (** What a successful initialisation stores. *)
  Lemma init_stored o x z n lo hi o' : lin_init o x z n lo hi = Ret (o', true) ->
    no_nan n x -> nnan lo = false -> nnan hi = false ->
    l_alloc o' = true /\ l_flag o' = true /\ l_n o' = n /\ 2 <= n /\ l_i o' = l_i o /\ l_min o' = lo /\ l_max o' = hi /\
    (val lo < val hi)%R /\ (val (l_x o' 0) <= val lo)%R /\ (val hi <= val (l_x o' (n - 1)%nat))%R /\
    ((ascending n x /\ l_x o' = x /\ l_z o' = z) \/
     (descending n x /\ l_x o' = (fun i => x (n - i - 1)) /\ l_z o' = (fun i => z (n - i - 1)))).
  Proof.
    intros E NN Nl Nh. unfold lin_init in E.
    rewrite val_le in E by assumption. destruct (Rleb_spec (val hi) (val lo)) as [H|H]; [discriminate E|].
    destruct (Nat.ltb_spec n 2) as [L|L]; [discriminate E|].
    destruct (ordered_def n x NN L) as (b & O). rewrite O in E. cbn [bindO] in E.
    destruct b; cbn [negb] in E; [|discriminate E].
    rewrite !read_ok in E by lia. cbn [bindO] in E.
    rewrite (val_lt (x 1) (x 0)) in E by (apply NN; lia).
    assert (Ord : (if Rltb (val (x 1)) (val (x 0)) then descending n x else ascending n x)).
    { destruct (Nat.eq_dec n 2) as [->|D].
      - assert (N2 : val (x 0) <> val (x 1)).
        { intro Q. rewrite Rltb_false in E by lra. rewrite !read_ok in E by lia. cbn [bindO Nat.sub] in E.
          rewrite val_lt in E by (auto; apply NN; lia). rewrite val_lt in E by (auto; apply NN; lia).
          destruct (Rltb_spec (val lo) (val (x 0))); cbn [orb] in E; [discriminate E|].
          destruct (Rltb_spec (val (x 1)) (val hi)); [discriminate E | lra]. }
        destruct (Rltb_spec (val (x 1)) (val (x 0))); intros i Hi;
          (replace i with 0 by lia); cbn [Nat.add]; lra.
      - destruct (ordered_strict n x NN ltac:(lia) O) as [A|A]; pose proof (A 0 ltac:(lia)) as A0; cbn [Nat.add] in A0;
          destruct (Rltb_spec (val (x 1)) (val (x 0))); auto; lra. }
    destruct (Rltb_spec (val (x 1)) (val (x 0))) as [R1|R1]. 
    all: rewrite !read_ok in E by lia; cbn [bindO l_i] in E.
    - rewrite val_lt in E by (auto; apply NN; lia). rewrite val_lt in E by (auto; apply NN; lia).
      destruct (Rltb_spec (val lo) (val (x (n - 0 - 1)))); cbn [orb] in E; [discriminate E|].
      destruct (Rltb_spec (val (x (n - (n - 1) - 1))) (val hi)); [discriminate E|].
      assert (Eo : o' = mkLin true (fun i => x (n - i - 1)) (fun i => z (n - i - 1)) n (l_i o) lo hi true) by congruence.
      subst o'. cbn. repeat split; auto; try lra.
    - rewrite val_lt in E by (auto; apply NN; lia). rewrite val_lt in E by (auto; apply NN; lia).
      destruct (Rltb_spec (val lo) (val (x 0))); cbn [orb] in E; [discriminate E|].
      destruct (Rltb_spec (val (x (n - 1))) (val hi)); [discriminate E|].
      assert (Eo : o' = mkLin true x z n (l_i o) lo hi true) by congruence.
      subst o'. cbn. repeat split; auto; try lra.
  Qed.

  Lemma rev_asc n (x : nat -> T) : descending n x -> ascending n (fun i => x (n - i - 1)).
  Proof.
    intros D i Hi. specialize (D (n - (i + 1) - 1)). replace (n - (i + 1) - 1 + 1) with (n - i - 1) in D by lia.
    apply D. lia.
  Qed.
  Lemma rev_nan n (x : nat -> T) : no_nan n x -> no_nan n (fun i => x (n - i - 1)).
  Proof. intros H i Hi. apply H. lia. Qed.

  Lemma init_ok o x z n lo hi o' : lin_init o x z n lo hi = Ret (o', true) ->
    no_nan n x -> nnan lo = false -> nnan hi = false ->
    l_i o + 1 < n -> lin_ok o'.
  Proof.
    intros E NN Nl Nh Hi. destruct (init_stored _ _ _ _ _ _ _ E NN Nl Nh) as
      (A & B & C & D & F & G & H & I & J & K & [(P & Q & R1)|(P & Q & R1)]);
    unfold lin_ok; rewrite A, C, F, G, H, Q; repeat split; auto using rev_asc, rev_nan.
  Qed.
End Linear.

(** ** Real tables *)
Local Open Scope R_scope.

Lemma R_nan (x : R) : nnan x = false.
Proof. unfold nnan. rnum. now rewrite Reqb_true. Qed.

Lemma R_no_nan n (x : nat -> R) : no_nan n x.
Proof. intros i _. apply R_nan. Qed.

Lemma formula_segment (X Z : nat -> R) i t : X i < X (i + 1)%nat ->
  (lin_formula X Z i t - Z i) * (X (i + 1)%nat - X i) = (Z (i + 1)%nat - Z i) * (t - X i).
Proof. intro H. unfold lin_formula. rnum. field. lra. Qed.

Lemma cell_on_segment n (X Z : nat -> R) t i : ascending n X -> cell_of n X t i ->
  X 0%nat <= t -> t <= X (n - 1)%nat -> on_segment n X Z t (lin_formula X Z i t).
Proof.
  intros A (L & P & Q) Lo Hi. exists i. split; [exact L|]. specialize (A i L). cbn in A, P, Q.
  split.
  - rewrite Rmin_left, Rmax_right by lra. split.
    + destruct P as [->|P]; [exact Lo | exact P].
    + destruct Q as [->|Q]; [|lra]. now replace (n - 2 + 1)%nat with (n - 1)%nat by lia.
  - now apply formula_segment.
Qed.

Lemma on_segment_rev n (x z : nat -> R) t v :
  on_segment n (fun i => x (n - i - 1)%nat) (fun i => z (n - i - 1)%nat) t v -> on_segment n x z t v.
Proof.
  intros (i & L & B & E). cbv beta in B, E. exists (n - (i + 1) - 1)%nat.
  replace (n - (i + 1) - 1 + 1)%nat with (n - i - 1)%nat by lia.
  split; [lia|]. split; [rewrite Rmin_comm, Rmax_comm; exact B | nra].
Qed.

(** The interpolant of a strictly ordered table is unique. *)
Lemma on_segment_unique_asc n (x z : nat -> R) t v w : ascending n x ->
  on_segment n x z t v -> on_segment n x z t w -> v = w.
Proof.
  intros A.
  assert (H : forall i j v w, (i + 1 < n)%nat -> (j + 1 < n)%nat -> (i <= j)%nat ->
    x i <= t <= x (i + 1)%nat -> x j <= t <= x (j + 1)%nat ->
    (v - z i) * (x (i + 1)%nat - x i) = (z (i + 1)%nat - z i) * (t - x i) ->
    (w - z j) * (x (j + 1)%nat - x j) = (z (j + 1)%nat - z j) * (t - x j) -> v = w).
  { clear v w. intros i j v w Li Lj Le Bi Bj Ei Ej.
    pose proof (A i Li) as Ai. pose proof (A j Lj) as Aj. cbn in Ai, Aj.
    destruct (Nat.eq_dec i j) as [->|D].
    - apply (Rmult_eq_reg_r (x (j + 1)%nat - x j)); lra.
    - pose proof (asc_le n x A (i + 1)%nat j ltac:(lia) ltac:(lia)) as Q. cbn in Q.
      assert (t = x (i + 1)%nat) by lra. assert (t = x j) by lra.
      assert (Ej' : (i + 1)%nat = j).
      { destruct (Nat.eq_dec (i + 1) j) as [E|E]; [exact E|].
        pose proof (asc_lt n x A (i + 1)%nat j ltac:(lia) ltac:(lia)) as Q'. cbn in Q'. lra. }
      assert (v = z (i + 1)%nat). { apply (Rmult_eq_reg_r (x (i + 1)%nat - x i)); [|lra]. nra. }
      assert (w = z j). { apply (Rmult_eq_reg_r (x (j + 1)%nat - x j)); [|lra]. nra. }
      subst j. congruence. }
  intros (i & Li & Bi & Ei) (j & Lj & Bj & Ej).
  pose proof (A i Li) as Ai. pose proof (A j Lj) as Aj. cbn in Ai, Aj.
  rewrite Rmin_left, Rmax_right in Bi, Bj by lra.
  destruct (Nat.le_ge_cases i j) as [Le|Le].
  - exact (H i j v w Li Lj Le Bi Bj Ei Ej).
  - symmetry. exact (H j i w v Lj Li Le Bj Bi Ej Ei).
Qed.

Lemma on_segment_rev_iff n (x z : nat -> R) t v :
  on_segment n x z t v -> on_segment n (fun i => x (n - i - 1)%nat) (fun i => z (n - i - 1)%nat) t v.
Proof.
  intros (i & L & B & E). exists (n - (i + 1) - 1)%nat. cbv beta.
  replace (n - (n - (i + 1) - 1) - 1)%nat with (i + 1)%nat by lia.
  replace (n - (n - (i + 1) - 1 + 1) - 1)%nat with i by lia.
  split; [lia|]. split; [rewrite Rmin_comm, Rmax_comm; exact B | nra].
Qed.

Lemma on_segment_unique n (x z : nat -> R) t v w : ascending n x \/ descending n x ->
  on_segment n x z t v -> on_segment n x z t w -> v = w.
Proof.
  intros [A|A] P Q; [eapply on_segment_unique_asc; eauto|].
  apply rev_asc in A. eapply on_segment_unique_asc; [exact A | |]; apply on_segment_rev_iff; eassumption.
Qed.

Lemma on_segment_point n (x z : nat -> R) k : (2 <= n)%nat -> (k < n)%nat -> on_segment n x z (x k) (z k).
Proof.
  intros L K. destruct (Nat.eq_dec k (n - 1)) as [->|D].
  - exists (n - 2)%nat. replace (n - 2 + 1)%nat with (n - 1)%nat by lia. split; [lia|].
    split; [split; [apply Rmin_r | apply Rmax_r] | ring].
  - exists k. split; [lia|]. split; [split; [apply Rmin_l | apply Rmax_l] | ring].
Qed.

Lemma on_segment_between n (x z : nat -> R) t v : ascending n x \/ descending n x -> on_segment n x z t v ->
  exists i, (i + 1 < n)%nat /\ Rmin (x i) (x (i + 1)%nat) <= t <= Rmax (x i) (x (i + 1)%nat) /\
    Rmin (z i) (z (i + 1)%nat) <= v <= Rmax (z i) (z (i + 1)%nat).
Proof.
  intros A (i & L & B & E). exists i. split; [exact L|]. split; [exact B|].
  assert (D : x i <> x (i + 1)%nat) by (destruct A as [A|A]; specialize (A i L); cbn in A; lra).
  assert (F : exists f, 0 <= f <= 1 /\ v = z i + f * (z (i + 1)%nat - z i)).
  { exists ((t - x i) / (x (i + 1)%nat - x i)). split.
    - unfold Rmin, Rmax in B. repeat destruct Rle_dec; try lra.
      + split; [apply Rmult_le_pos; [lra | apply Rlt_le, Rinv_0_lt_compat; lra] |].
        apply Rmult_le_reg_r with (x (i + 1)%nat - x i); [lra|]. field_simplify; lra.
      + replace ((t - x i) / (x (i + 1)%nat - x i)) with ((x i - t) / (x i - x (i + 1)%nat)) by (field; lra).
        split; [apply Rmult_le_pos; [lra | apply Rlt_le, Rinv_0_lt_compat; lra] |].
        apply Rmult_le_reg_r with (x i - x (i + 1)%nat); [lra|]. field_simplify; lra.
    - apply (Rmult_eq_reg_r (x (i + 1)%nat - x i)); [|lra]. field_simplify; [|lra]. lra. }
  destruct F as (f & Hf & ->). unfold Rmin, Rmax. repeat destruct Rle_dec; nra.
Qed.

(** ** Rounded arithmetic *)
Section Rounded.
  Context {T : Type} {N : Num T} {V : NumVal T}.

  Lemma rd_pos r : 0 <= r -> 0 <= rd r.
  Proof. intro H. rewrite <- rd_0. now apply rd_mono. Qed.
  Lemma rd_neg r : r <= 0 -> rd r <= 0.
  Proof. intro H. rewrite <- rd_0. now apply rd_mono. Qed.

  (** The difference of the abscissas stays positive. *)
  Lemma gap_pos (a b : T) : nfin a = true -> nfin b = true -> val a < val b -> 0 < val (b -~ a).
  Proof.
    intros A B L. destruct (val_sub b a B A) as (_ & E). rewrite E.
    assert (P : 0 <= rd (val b - val a)) by (apply rd_pos; lra).
    destruct (Req_dec (rd (val b - val a)) 0) as [Z|Z]; [|lra].
    apply (rd_sub_0 b a B A) in Z. lra.
  Qed.

  Variables (X Z : nat -> T) (i : nat).
  Let d := Z (i + 1)%nat -~ Z i.
  Let D := X (i + 1)%nat -~ X i.

  (** Nothing overflows at [x]. *)
  Definition no_overflow (x : T) : Prop :=
    nfin (X i) = true /\ nfin (X (i + 1)%nat) = true /\ nfin (Z i) = true /\ nfin (Z (i + 1)%nat) = true /\
    nfin x = true /\ nfin d = true /\ nfin D = true /\ nfin (x -~ X i) = true /\
    nfin (d *~ (x -~ X i)) = true /\ nfin (d *~ (x -~ X i) /~ D) = true.

  Lemma formula_mono x x' : val (X i) < val (X (i + 1)%nat) -> val (X i) <= val x -> val x <= val x' ->
    nfin x = true -> no_overflow x' ->
    (val (Z i) <= val (Z (i + 1)%nat) ->
       val (Z i) <= val (lin_formula X Z i x) <= val (lin_formula X Z i x')) /\
    (val (Z (i + 1)%nat) <= val (Z i) ->
       val (lin_formula X Z i x') <= val (lin_formula X Z i x) <= val (Z i)).
  Proof.
    intros HX L1 L2 Fx (F1 & F2 & F3 & F4 & F5 & F6 & F7 & F8 & F9 & F10).
    unfold lin_formula. fold d. fold D.
    destruct (val_sub x (X i) Fx F1) as (Ne & Ve).
    destruct (val_sub x' (X i) F5 F1) as (_ & Ve').
    assert (E0 : 0 <= val (x -~ X i)) by (rewrite Ve; apply rd_pos; lra).
    assert (E1 : val (x -~ X i) <= val (x' -~ X i)) by (rewrite Ve, Ve'; apply rd_mono; lra).
    assert (Fe : nfin (x -~ X i) = true).
    { apply (fin_between n0 _ (x' -~ X i)); auto using fin_0. rewrite val_0. lra. }
    set (e := x -~ X i) in *. set (e' := x' -~ X i) in *.
    destruct (val_mul d e F6 Fe) as (Np & Vp). destruct (val_mul d e' F6 F8) as (_ & Vp').
    assert (Dp : 0 < val D) by (apply gap_pos; assumption).
    destruct (val_div (d *~ e') D F9 F7 ltac:(lra)) as (_ & Vq').
    destruct (val_add (Z i) (d *~ e' /~ D) F3 F10) as (_ & Vr').
    assert (Vd : val d = rd (val (Z (i + 1)%nat) - val (Z i))) by (apply val_sub; assumption).
    assert (Inv : 0 < / val D) by (apply Rinv_0_lt_compat; exact Dp).
    assert (ZZ : rd (val (Z i) + 0) = val (Z i)) by (rewrite Rplus_0_r; apply rd_val; exact F3).
    split; intro HZ.
    - assert (d0 : 0 <= val d) by (rewrite Vd; apply rd_pos; lra).
      assert (P0 : 0 <= val (d *~ e)) by (rewrite Vp; apply rd_pos; nra).
      assert (P1 : val (d *~ e) <= val (d *~ e')) by (rewrite Vp, Vp'; apply rd_mono; nra).
      assert (Fp : nfin (d *~ e) = true).
      { apply (fin_between n0 _ (d *~ e')); auto using fin_0. rewrite val_0. lra. }
      destruct (val_div (d *~ e) D Fp F7 ltac:(lra)) as (Nq & Vq).
      assert (Q0 : 0 <= val (d *~ e /~ D)) by (rewrite Vq; apply rd_pos; unfold Rdiv; nra).
      assert (Q1 : val (d *~ e /~ D) <= val (d *~ e' /~ D)) by (rewrite Vq, Vq'; apply rd_mono; unfold Rdiv; nra).
      assert (Fq : nfin (d *~ e /~ D) = true).
      { apply (fin_between n0 _ (d *~ e' /~ D)); auto using fin_0. rewrite val_0. lra. }
      destruct (val_add (Z i) (d *~ e /~ D) F3 Fq) as (_ & Vr). rewrite Vr, Vr'.
      split; [rewrite <- ZZ at 1|]; apply rd_mono; lra.
    - assert (d0 : val d <= 0) by (rewrite Vd; apply rd_neg; lra).
      assert (P0 : val (d *~ e) <= 0) by (rewrite Vp; apply rd_neg; nra).
      assert (P1 : val (d *~ e') <= val (d *~ e)) by (rewrite Vp, Vp'; apply rd_mono; nra).
      assert (Fp : nfin (d *~ e) = true).
      { apply (fin_between (d *~ e') _ n0); auto using fin_0. rewrite val_0. lra. }
      destruct (val_div (d *~ e) D Fp F7 ltac:(lra)) as (Nq & Vq).
      assert (Q0 : val (d *~ e /~ D) <= 0) by (rewrite Vq; apply rd_neg; unfold Rdiv; nra).
      assert (Q1 : val (d *~ e' /~ D) <= val (d *~ e /~ D)) by (rewrite Vq, Vq'; apply rd_mono; unfold Rdiv; nra).
      assert (Fq : nfin (d *~ e /~ D) = true).
      { apply (fin_between (d *~ e' /~ D) _ n0); auto using fin_0. rewrite val_0. lra. }
      destruct (val_add (Z i) (d *~ e /~ D) F3 Fq) as (_ & Vr). rewrite Vr, Vr'.
      split; [apply rd_mono; lra|]. apply Rle_trans with (rd (val (Z i) + 0)); [apply rd_mono; lra | lra].
  Qed.

  (** At a table point with a following cell the value is the table value. *)
  Lemma formula_point : val (X i) < val (X (i + 1)%nat) ->
    nfin (X i) = true -> nfin (X (i + 1)%nat) = true -> nfin (Z i) = true -> nfin (Z (i + 1)%nat) = true ->
    nfin d = true -> nfin D = true -> val (lin_formula X Z i (X i)) = val (Z i).
  Proof.
    intros HX F1 F2 F3 F4 F6 F7. unfold lin_formula. fold d. fold D.
    assert (Dp : 0 < val D) by (apply gap_pos; assumption).
    destruct (val_sub (X i) (X i) F1 F1) as (Ne & Ve). rewrite Rminus_eq_0, rd_0 in Ve.
    assert (Fe : nfin (X i -~ X i) = true) by (apply (fin_between n0 _ n0); auto using fin_0; rewrite val_0; lra).
    destruct (val_mul d _ F6 Fe) as (Np & Vp). rewrite Ve, Rmult_0_r, rd_0 in Vp.
    assert (Fp : nfin (d *~ (X i -~ X i)) = true) by (apply (fin_between n0 _ n0); auto using fin_0; rewrite val_0; lra).
    destruct (val_div _ D Fp F7 ltac:(lra)) as (Nq & Vq). rewrite Vp in Vq.
    replace (0 / val D) with 0 in Vq by (field; lra). rewrite rd_0 in Vq.
    assert (Fq : nfin (d *~ (X i -~ X i) /~ D) = true) by (apply (fin_between n0 _ n0); auto using fin_0; rewrite val_0; lra).
    destruct (val_add _ _ F3 Fq) as (_ & ->). rewrite Vq, Rplus_0_r. now apply rd_val.
  Qed.
End Rounded.
