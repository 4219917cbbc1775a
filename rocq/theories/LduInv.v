(** CholeskyLdu::Invert over the reals (C06). *)
From Coq Require Import Reals Lra Lia List Arith Bool ZArith Psatz.
From Verif Require Import Num Loops Ldu Spec_Ldu LduFacts.
Local Open Scope R_scope.

(** ** The in-place loops *)

(** Effect of an accumulation loop on one entry. *)
Lemma sub_loop (g : mat R -> nat -> R) (i j : nat) lo cnt (A : mat R) :
  (forall k B, (lo <= k < lo + cnt)%nat ->
     (forall a b, a <> i \/ b <> j -> B a b = A a b) -> g B k = g A k) ->
  let B := loop (fun k A => upd A i j (A i j + g A k)) lo cnt A in
  B i j = A i j + rsum cnt (fun t => g A (lo + t)%nat) /\
  (forall a b, a <> i \/ b <> j -> B a b = A a b).
Proof.
  intros Hg B.
  pose proof (loop_inv (fun m (B : mat R) =>
    (m <= lo + cnt)%nat -> (lo <= m)%nat ->
    B i j = A i j + rsum (m - lo) (fun t => g A (lo + t)%nat) /\
    (forall a b, a <> i \/ b <> j -> B a b = A a b))
    (fun k A => upd A i j (A i j + g A k)) cnt lo A) as HL.
  unfold B. replace cnt with (lo + cnt - lo)%nat at 2 by lia.
  apply HL; try lia.
  - intros _ _. rewrite Nat.sub_diag. cbn. split; [lra|auto].
  - intros k C Hk IH _ _. destruct IH as [E1 E2]; try lia.
    split.
    + rewrite upd_eq, E1, (Hg k C Hk E2).
      replace (S k - lo)%nat with (S (k - lo)) by lia. cbn [rsum].
      replace (lo + (k - lo))%nat with k by lia. lra.
    + intros a b Hab. rewrite upd_neq by lia. auto.
Qed.

Lemma loop_sub_add i j (h : mat R -> nat -> R) lo cnt (A : mat R) :
  loop (fun k A => upd A i j (A i j - h A k)) lo cnt A
  = loop (fun k A => upd A i j (A i j + - h A k)) lo cnt A.
Proof. apply loop_ext. intros. f_equal. Qed.

Lemma invl_j_spec i j (A : mat R) : (j < i)%nat ->
  let B := invl_j i j A in
  B i j = - A i j - rsum (i - (j + 1)) (fun t => A i (j + 1 + t)%nat * A (j + 1 + t)%nat j) /\
  (forall a b, a <> i \/ b <> j -> B a b = A a b).
Proof.
  intros Hji. unfold invl_j. rnum.
  rewrite (loop_sub_add i j (fun A k => A i k * A k j)).
  destruct (sub_loop (fun A k => - (A i k * A k j)) i j (j + 1) (i - (j + 1)) (upd A i j (- A i j))) as [E1 E2].
  { intros k B Hk HB. rewrite !HB by lia. reflexivity. }
  split.
  - rewrite E1, upd_eq.
    assert (E : rsum (i - (j + 1)) (fun t => - (upd A i j (- A i j) i (j + 1 + t)%nat * upd A i j (- A i j) (j + 1 + t)%nat j))
      = rsum (i - (j + 1)) (fun t => -1 * (A i (j + 1 + t)%nat * A (j + 1 + t)%nat j))).
    { apply rsum_ext. intros t Ht. rewrite !upd_neq by lia. ring. }
    rewrite E, rsum_scal. lra.
  - intros a b Hab. rewrite E2 by assumption. now rewrite upd_neq by assumption.
Qed.

(** Rows below [m] of the strict lower triangle are inverted. *)
Definition inv_rows (L N : mat R) (i m : nat) : Prop :=
  forall j, (j < m)%nat ->
    N i j = - L i j - rsum (i - (j + 1)) (fun t => L i (j + 1 + t)%nat * N (j + 1 + t)%nat j).

Lemma invert_lower_spec n (L : mat R) :
  let N := invert_lower n L in
  (forall i, (i < n)%nat -> inv_rows L N i i) /\
  (forall a b, (n <= a)%nat \/ (a <= b)%nat -> N a b = L a b).
Proof.
  cbv zeta. unfold invert_lower.
  destruct n as [|n]; [cbn; split; intros; [lia|reflexivity]|].
  pose proof (loop_inv (fun m (N : mat R) =>
    (forall i, (i < m)%nat -> inv_rows L N i i) /\
    (forall a b, (m <= a)%nat \/ (a <= b)%nat -> N a b = L a b))
    (fun i A => loop (invl_j i) 0 i A) n 1%nat L) as HL.
  replace (S n - 1)%nat with n by lia. change (S n) with (1 + n)%nat. apply HL; clear HL.
  - split; [|auto]. intros i Hi j Hj. lia.
  - intros i N Hi (Hrows & Hout).
    pose proof (loop_inv (fun m (B : mat R) =>
      (m <= i)%nat ->
      (forall a b, a <> i \/ (m <= b)%nat -> B a b = N a b) /\ inv_rows L B i m)
      (invl_j i) i 0%nat N) as HJ.
    destruct HJ as (Hun & Hrow); try lia.
    + intros _. split; [auto|]. intros j Hj. lia.
    + intros j B Hj IH Hji. destruct IH as (Hun & Hrow); [lia|].
      destruct (invl_j_spec i j B ltac:(lia)) as (E1 & E2).
      split.
      * intros a b Hab. rewrite E2 by lia. apply Hun. lia.
      * intros j' Hj'. destruct (Nat.eq_dec j' j) as [->|Hne].
        -- rewrite E1. rewrite Hun by lia. rewrite Hout by lia. f_equal.
           apply rsum_ext. intros t Ht. rewrite (E2 (j + 1 + t)%nat j) by lia. rewrite (Hun i) by lia. rewrite (Hout i) by lia. reflexivity.
        -- rewrite E2 by lia. rewrite (Hrow j') by lia. f_equal.
           apply rsum_ext. intros t Ht. rewrite E2 by lia. reflexivity.
    + replace (0 + i)%nat with i in * by lia. split.
      * intros i' Hi'. destruct (Nat.eq_dec i' i) as [->|Hne]; [exact Hrow|].
        intros j Hj. rewrite Hun by lia. rewrite (Hrows i' ltac:(lia) j Hj). f_equal.
        apply rsum_ext. intros t Ht. rewrite Hun by lia. reflexivity.
      * intros a b Hab. rewrite Hun by lia. apply Hout. lia.
Qed.

(** Second stage. *)
Definition vij (N : mat R) (n i j : nat) : R :=
  unitL N i j / N i i + rsum (n - (i + 1)) (fun t => N (i + 1 + t)%nat i * N (i + 1 + t)%nat j / N (i + 1 + t)%nat (i + 1 + t)%nat).

Lemma inv_i_spec n j i (A : mat R) : (j <= i)%nat -> (i < n)%nat ->
  let B := inv_i n j i A in
  B i j = vij A n i j /\ B j i = vij A n i j /\
  (forall a b, (a <> i \/ b <> j) -> (a <> j \/ b <> i) -> B a b = A a b).
Proof.
  intros Hji Hi. unfold inv_i. rnum.
  set (A1 := if Nat.eqb j i then upd A i j (1 / A i i) else upd A i j (A i j / A i i)).
  assert (H1 : A1 i j = unitL A i j / A i i /\ forall a b, a <> i \/ b <> j -> A1 a b = A a b).
  { unfold A1. destruct (Nat.eqb_spec j i) as [E|E].
    - subst j. rewrite upd_eq, unitL_eq. split; [reflexivity|]. intros a b Hab. now rewrite upd_neq by assumption.
    - rewrite upd_eq, unitL_lt by lia. split; [reflexivity|]. intros a b Hab. now rewrite upd_neq by assumption. }
  destruct H1 as (H1 & H2).
  destruct (sub_loop (fun A k => A k i * A k j / A k k) i j (i + 1) (n - (i + 1)) A1) as [E1 E2].
  { intros k B Hk HB. rewrite !HB by lia. reflexivity. }
  set (A2 := loop (fun k A => upd A i j (A i j + A k i * A k j / A k k)) (i + 1) (n - (i + 1)) A1) in *.
  assert (E3 : A2 i j = vij A n i j).
  { rewrite E1, H1. unfold vij. f_equal. apply rsum_ext. intros t Ht. rewrite !H2 by lia. reflexivity. }
  repeat split.
  - destruct (Nat.eq_dec i j) as [->|Hne]; [rewrite upd_eq; exact E3|]. rewrite upd_neq by lia. exact E3.
  - rewrite upd_eq. exact E3.
  - intros a b Hab Hba. rewrite upd_neq by lia. rewrite E2 by lia. apply H2. lia.
Qed.

Lemma invert_stage2 n (N : mat R) :
  let V := loop (inv_j n) 0 n N in
  forall i j, (j <= i)%nat -> (i < n)%nat -> V i j = vij N n i j /\ V j i = vij N n i j.
Proof.
  cbv zeta.
  pose proof (loop_inv (fun m (V : mat R) =>
    (m <= n)%nat ->
    (forall i j, (j < m)%nat -> (j <= i)%nat -> (i < n)%nat -> V i j = vij N n i j /\ V j i = vij N n i j) /\
    (forall a b, (m <= a)%nat -> (m <= b)%nat -> V a b = N a b)) (inv_j n) n 0%nat N) as HL.
  destruct HL as (HV & _); try lia.
  - intros _. split; [intros; lia|auto].
  - intros j V Hj IH Hjn. destruct IH as (HV & HN); [lia|].
    unfold inv_j.
    pose proof (loop_inv (fun m (B : mat R) =>
      (j <= m <= n)%nat ->
      (forall i, (j <= i < m)%nat -> B i j = vij N n i j /\ B j i = vij N n i j) /\
      (forall a b, (a < j)%nat \/ (b < j)%nat -> B a b = V a b) /\
      (forall a b, (j < a)%nat -> (j < b)%nat -> B a b = N a b) /\
      (forall a, (m <= a)%nat -> B a j = N a j)) (inv_i n j) (n - j) j V) as HI.
    destruct HI as (HI1 & HI2 & HI3 & HI4); try lia.
    + intros _. repeat split; try (intros; lia); auto; intros; apply HN; lia.
    + intros i B Hi IH Hm. destruct IH as (I1 & I2 & I3 & I4); [lia|].
      destruct (inv_i_spec n j i B ltac:(lia) ltac:(lia)) as (E1 & E2 & E3).
      assert (Ev : vij B n i j = vij N n i j).
      { unfold vij. f_equal.
        - destruct (Nat.eq_dec j i) as [->|Hne].
          + rewrite !unitL_eq. rewrite I4 by lia. reflexivity.
          + rewrite !unitL_lt by lia. rewrite I4 by lia. rewrite I3 by lia. reflexivity.
        - apply rsum_ext. intros t Ht. rewrite (I4 (i + 1 + t)%nat) by lia.
          rewrite (I3 (i + 1 + t)%nat (i + 1 + t)%nat) by lia.
          destruct (Nat.eq_dec j i) as [->|Hne]; [rewrite (I4 (i + 1 + t)%nat) by lia; reflexivity|].
          rewrite I3 by lia. reflexivity. }
      repeat split.
      * destruct (Nat.eq_dec i0 i) as [->|Hne]; [congruence|]. rewrite E3 by lia. apply I1. lia.
      * destruct (Nat.eq_dec i0 i) as [->|Hne]; [congruence|]. rewrite E3 by lia. apply I1. lia.
      * intros a b Hab. rewrite E3 by lia. auto.
      * intros a b Ha Hb. rewrite E3 by lia. auto.
      * intros a Ha. rewrite E3 by lia. apply I4. lia.
    + split.
      * intros i j' Hj' Hji Hi. destruct (Nat.eq_dec j' j) as [->|Hne]; [apply HI1; lia|].
        rewrite !HI2 by lia. apply HV; lia.
      * intros a b Ha Hb. apply HI3; lia.
  - intros i j Hji Hi. apply HV; lia.
Qed.


Lemma mmul_assoc n A B C i j : mmul n (mmul n A B) C i j = mmul n A (mmul n B C) i j.
Proof.
  unfold mmul.
  assert (E : rsum n (fun k => rsum n (fun l => A i l * B l k) * C k j)
    = rsum n (fun k => rsum n (fun l => A i l * B l k * C k j))).
  { apply rsum_ext. intros k _. now rewrite rsum_scal_r. }
  rewrite E, rsum_swap. apply rsum_ext. intros l _.
  rewrite <- rsum_scal. apply rsum_ext. intros k _. ring.
Qed.
Lemma mmul_ext n A A' B B' : eqn n A A' -> eqn n B B' -> eqn n (mmul n A B) (mmul n A' B').
Proof. intros HA HB i j Hi Hj. unfold mmul. apply rsum_ext. intros k Hk. rewrite HA, HB by assumption. reflexivity. Qed.
Lemma mmul_id_l n A : eqn n (mmul n idm A) A.
Proof.
  intros i j Hi Hj. unfold mmul, idm. rewrite (rsum_extract n i) by assumption.
  rewrite Nat.eqb_refl. rewrite (rsum_zero n); [lra|].
  intros k Hk. destruct (Nat.eqb_spec k i); [reflexivity|].
  destruct (Nat.eqb_spec i k); [lia|lra].
Qed.
Lemma mmul_id_r n A : eqn n (mmul n A idm) A.
Proof.
  intros i j Hi Hj. unfold mmul, idm. rewrite (rsum_extract n j) by assumption.
  rewrite Nat.eqb_refl. rewrite (rsum_zero n); [lra|].
  intros k Hk. destruct (Nat.eqb_spec k j); [reflexivity|]. lra.
Qed.
Lemma eqn_trans n A B C : eqn n A B -> eqn n B C -> eqn n A C.
Proof. intros H1 H2 i j Hi Hj. rewrite H1, H2 by assumption. reflexivity. Qed.
Lemma eqn_sym n A B : eqn n A B -> eqn n B A.
Proof. intros H i j Hi Hj. now rewrite H. Qed.
Lemma eqn_refl n A : eqn n A A.
Proof. intros i j _ _. reflexivity. Qed.

(** Unit lower triangular matrices are left-cancellable. *)
Lemma unitL_cancel n L X Y :
  eqn n (mmul n (unitL L) X) (mmul n (unitL L) Y) -> eqn n X Y.
Proof.
  intros HE i. induction i as [i IH] using lt_wf_ind. intros j Hi Hj.
  pose proof (HE i j Hi Hj) as E. unfold mmul in E.
  rewrite (rsum_tail0 (S i) n (fun k => unitL L i k * X k j)) in E
    by (try lia; intros k Hk; rewrite unitL_gt by lia; lra).
  rewrite (rsum_tail0 (S i) n (fun k => unitL L i k * Y k j)) in E
    by (try lia; intros k Hk; rewrite unitL_gt by lia; lra).
  cbn [rsum] in E. rewrite unitL_eq in E.
  assert (E' : rsum i (fun k => unitL L i k * X k j) = rsum i (fun k => unitL L i k * Y k j)).
  { apply rsum_ext. intros k Hk. rewrite IH by lia. reflexivity. }
  lra.
Qed.

Lemma invert_lower_right n (L : mat R) :
  eqn n (mmul n (unitL L) (unitL (invert_lower n L))) idm.
Proof.
  destruct (invert_lower_spec n L) as (Hrow & _). set (N := invert_lower n L) in *.
  intros i j Hi Hj. unfold mmul, idm.
  rewrite (rsum_tail0 (S i) n) by (try lia; intros k Hk; rewrite (unitL_gt L i k) by lia; lra).
  destruct (Nat.eqb_spec i j) as [->|Hne].
  - cbn [rsum]. rewrite !unitL_eq. rewrite (rsum_zero j); [lra|].
    intros k Hk. rewrite (unitL_gt N k j) by lia. lra.
  - destruct (Nat.lt_ge_cases i j) as [Hlt|Hge].
    { apply rsum_zero. intros k Hk. rewrite (unitL_gt N k j) by lia. lra. }
    assert (Hji : (j < i)%nat) by lia.
    cbn [rsum]. rewrite unitL_eq. rewrite (unitL_lt N i j) by lia.
    rewrite (Hrow i Hi j Hji).
    replace i with (j + 1 + (i - (j + 1)))%nat at 1 by lia.
    rewrite rsum_split. replace (j + 1)%nat with (S j) at 1 by lia. cbn [rsum].
    rewrite (unitL_lt L i j) by lia. rewrite unitL_eq.
    rewrite (rsum_zero j) by (intros k Hk; rewrite (unitL_gt N k j) by lia; lra).
    assert (E : rsum (i - (j + 1)) (fun t => unitL L i (j + 1 + t)%nat * unitL N (j + 1 + t)%nat j)
      = rsum (i - (j + 1)) (fun t => L i (j + 1 + t)%nat * N (j + 1 + t)%nat j)).
    { apply rsum_ext. intros t Ht. rewrite !unitL_lt by lia. reflexivity. }
    rewrite E. lra.
Qed.

Lemma invert_lower_left n (L : mat R) :
  eqn n (mmul n (unitL (invert_lower n L)) (unitL L)) idm.
Proof.
  apply (unitL_cancel n L). intros i j Hi Hj. rewrite <- mmul_assoc.
  rewrite (mmul_ext n _ idm _ (unitL L) (invert_lower_right n L) (eqn_refl n _)) by assumption.
  rewrite mmul_id_l by assumption. now rewrite mmul_id_r.
Qed.


Lemma vij_sum n (N : mat R) i j : (j <= i)%nat -> (i < n)%nat ->
  vij N n i j = rsum n (fun k => unitL N k i * (unitL N k j / N k k)).
Proof.
  intros Hji Hi. unfold vij.
  replace n with (i + 1 + (n - (i + 1)))%nat at 2 by lia.
  rewrite rsum_split.
  assert (E0 : forall f, rsum (i + 1) f = rsum i f + f i) by (intros f; rewrite Nat.add_1_r; reflexivity).
  rewrite E0. clear E0.
  rewrite unitL_eq. rewrite (rsum_zero i) by (intros k Hk; rewrite (unitL_gt N k i) by lia; lra).
  assert (E : rsum (n - (i + 1)) (fun t => N (i + 1 + t)%nat i * N (i + 1 + t)%nat j / N (i + 1 + t)%nat (i + 1 + t)%nat)
    = rsum (n - (i + 1)) (fun t => unitL N (i + 1 + t)%nat i * (unitL N (i + 1 + t)%nat j / N (i + 1 + t)%nat (i + 1 + t)%nat))).
  { apply rsum_ext. intros t Ht. rewrite !unitL_lt by lia. unfold Rdiv. ring. }
  rewrite E. lra.
Qed.

Theorem invert_correct n (M : mat R) : sym_factors n M -> pivots_nonzero n M ->
  let V := invert n M in
  eqn n (mmul n (ldu_product n M) V) idm /\ (forall i j, (i < n)%nat -> (j < n)%nat -> V i j = V j i).
Proof.
  intros Hsym Hpv V.
  set (N := invert_lower n M).
  assert (HVl : forall i j, (j <= i)%nat -> (i < n)%nat -> V i j = vij N n i j /\ V j i = vij N n i j)
    by apply invert_stage2.
  assert (HND : forall k, N k k = M k k).
  { intros k. destruct (invert_lower_spec n M) as (_ & Hd). apply Hd. lia. }
  set (Nt := (fun i k => unitL N k i) : mat R).
  set (DN := (fun k j => unitL N k j / M k k) : mat R).
  set (Lt := (fun k j => unitL M j k) : mat R).
  set (LD := (fun i k => unitL M i k * M k k) : mat R).
  assert (HV : eqn n V (mmul n Nt DN)).
  { intros i j Hi Hj. unfold mmul, Nt, DN.
    destruct (Nat.le_ge_cases j i) as [Hle|Hge].
    - rewrite (proj1 (HVl i j Hle Hi)), vij_sum by assumption.
      apply rsum_ext. intros k Hk. now rewrite HND.
    - rewrite (proj2 (HVl j i Hge Hj)), vij_sum by assumption.
      apply rsum_ext. intros k Hk. rewrite HND. unfold Rdiv. ring. }
  assert (HA : eqn n (ldu_product n M) (mmul n LD Lt)).
  { intros i j Hi Hj. unfold ldu_product, mmul, LD, Lt. apply rsum_ext. intros k Hk. f_equal.
    unfold unitU, unitL. natcases; auto. }
  assert (HLN : eqn n (mmul n Lt Nt) idm).
  { intros i j Hi Hj. unfold mmul, Lt, Nt.
    pose proof (invert_lower_left n M j i Hj Hi) as E. unfold mmul in E. fold N in E.
    unfold idm in *. rewrite Nat.eqb_sym. rewrite <- E. apply rsum_ext. intros k Hk. ring. }
  split.
  - eapply eqn_trans; [apply mmul_ext; [exact HA|exact HV]|].
    intros i j Hi Hj. rewrite mmul_assoc.
    assert (E1 : eqn n (mmul n Lt (mmul n Nt DN)) DN).
    { intros a b Ha Hb. rewrite <- mmul_assoc.
      rewrite (mmul_ext n _ idm _ DN HLN (eqn_refl n _)) by assumption. now apply mmul_id_l. }
    rewrite (mmul_ext n LD LD _ DN (eqn_refl n _) E1) by assumption.
    rewrite <- (invert_lower_right n M i j Hi Hj). fold N. unfold mmul, LD, DN.
    apply rsum_ext. intros k Hk. field. now apply Hpv.
  - intros i j Hi Hj. destruct (Nat.le_ge_cases j i) as [Hle|Hge].
    + destruct (HVl i j Hle Hi) as [-> ->]. reflexivity.
    + destruct (HVl j i Hge Hj) as [-> ->]. reflexivity.
Qed.
