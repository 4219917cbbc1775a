(** Property theorems C01-C06 (CholeskyLdu). *)
From Coq Require Import Reals Lra Lia List Arith Bool ZArith.
From Verif Require Import Num Loops Spec_Ldu Ldu LduFacts LduDom LduInv LduRows.
Local Open Scope R_scope.

(** C01: a successful decomposition of a matrix with non-positive off-diagonals
    multiplies back to the input; the diagonal exactly, the rest within the
    flush threshold. *)
Theorem C01_product_close n A M :
  (1 <= n)%nat -> 0 < A 0%nat 0%nat ->
  (forall i j, (j < i)%nat -> (i < n)%nat -> A i j <= 0) ->
  decompose n A = inl M ->
  forall i j, (j <= i)%nat -> (i < n)%nat ->
    ldu_product n M i i = A i i /\
    Rabs (ldu_product n M i j - A i j)
      <= tiny * (1 + rsum j (fun k => Rabs (M i k) * M k k + Rabs (M j k))) /\
    ldu_product n M j i = ldu_product n M i j.
Proof. exact (decompose_product_close n A M). Qed.
Print Assumptions C01_product_close.

(** C01, exact form: a matrix whose LDL^T factors avoid the flush band is
    decomposed into exactly those factors. *)
Theorem C01_product_exact n A L D :
  (1 <= n)%nat -> is_ldl n A L D -> clear_of_band n L D ->
  (forall k, (k < n)%nat -> 0 < D k) ->
  exists M, decompose n A = inl M /\
    (forall i, (i < n)%nat -> M i i = D i) /\
    (forall i j, (j < i)%nat -> (i < n)%nat -> M i j = L i j /\ M j i = L i j) /\
    (forall i j, (n <= i)%nat \/ (n <= j)%nat -> M i j = A i j).
Proof. exact (decompose_exact n A L D). Qed.
Print Assumptions C01_product_exact.

(** C01 for conductance matrices, bound in terms of the input. *)
Theorem C01_dominant_close n A M :
  (1 <= n)%nat -> strictly_dominant n A -> decompose n A = inl M ->
  forall i j, (i < n)%nat -> (j < n)%nat ->
    Rabs (ldu_product n M i j - A i j) <= tiny * (1 + rsum n (fun k => A k k + 1)).
Proof. exact (decompose_dominant_close n A M). Qed.
Print Assumptions C01_dominant_close.

(** C02: Solve returns the solution of (L*D*U) y = B and throws only on a zero pivot. *)
Theorem C02_solve n M B x :
  (1 <= n)%nat -> pivots_nonzero n M ->
  exists y, solve M B x n = inl y /\
    (forall i, (i < n)%nat -> mat_vec n (ldu_product n M) y i = B i) /\
    (forall i, (n <= i)%nat -> y i = x i).
Proof. exact (solve_correct n M B x). Qed.
Print Assumptions C02_solve.

Theorem C02_zero_pivot_throws n M B x k :
  (k < n)%nat -> M k k = 0 -> (forall j, (j < k)%nat -> M j j <> 0) ->
  exists y, solve M B x n = inr (k, y).
Proof. exact (solve_zero_pivot n M B x k). Qed.
Print Assumptions C02_zero_pivot_throws.

(** C02 composed with C01/C03: residual of decompose-then-solve in the input matrix. *)
Theorem C02_decompose_solve n A B x :
  (1 <= n)%nat -> strictly_dominant n A ->
  exists M y, decompose n A = inl M /\ solve M B x n = inl y /\
    forall i, (i < n)%nat ->
      Rabs (mat_vec n A y i - B i)
        <= tiny * (1 + rsum n (fun k => A k k + 1)) * rsum n (fun c => Rabs (y c)).
Proof. exact (decompose_solve_residual n A B x). Qed.
Print Assumptions C02_decompose_solve.

(** C03: a strictly dominant conductance matrix always decomposes, with positive pivots
    no larger than the input diagonal and multipliers in [-1,0]. *)
Theorem C03_dominant_succeeds n A :
  (1 <= n)%nat -> strictly_dominant n A ->
  exists M, decompose n A = inl M /\
    (forall k, (k < n)%nat -> 0 < M k k <= A k k) /\
    (forall i k, (k < i)%nat -> (i < n)%nat -> -1 <= M i k <= 0).
Proof.
  intros Hn HA. destruct (decompose_dominant_succeeds n A Hn HA) as (M & HM & _).
  exists M. split; [exact HM|]. exact (decompose_dominant_bounds n A M Hn HA HM).
Qed.
Print Assumptions C03_dominant_succeeds.

(** C04 is false: a positive definite matrix with positive off-diagonals
    decomposes without complaint into factors of a different matrix. *)
Theorem C04_positive_offdiagonal_refuted :
  exists n A, spd n A /\ exists M, decompose n A = inl M /\
    exists i j, (i < n)%nat /\ (j < n)%nat /\ ldu_product n M i j <> A i j.
Proof.
  destruct decompose_spd_wrong as (Hs & M & HM & Hne).
  exists 3%nat, ones2. split; [exact Hs|]. exists M. split; [exact HM|].
  exists 2%nat, 1%nat. repeat split; auto.
Qed.
Print Assumptions C04_positive_offdiagonal_refuted.

(** C05: the row-list version is gather, decompose, scatter, for any number
    type (in particular primitive floats). *)
Theorem C05_row_list {T} `{Num T} (n : Z) (r : nat -> Z) (rn : nat) (F : Z -> T) :
  (2 <= rn)%nat ->
  (forall a, (a < rn)%nat -> (0 <= r a < n)%Z) ->
  (forall a b, (a < rn)%nat -> (b < rn)%nat -> r a = r b -> a = b) ->
  let at_ a b := (n * r a + r b)%Z in
  let same (F' : Z -> T) (M : nat -> nat -> T) :=
    (forall a b, (a < rn)%nat -> (b < rn)%nat -> F' (at_ a b) = M a b) /\
    (forall o, (forall a b, (a < rn)%nat -> (b < rn)%nat -> o <> at_ a b) -> F' o = F o) in
  match decompose_rows n r rn F, decompose rn (fun a b => F (at_ a b)) with
  | inl F', inl M => same F' M
  | inr (i, F'), inr (i', M) => i = i' /\ same F' M
  | _, _ => False
  end.
Proof.
  intros Hrn Hrange Hinj. cbv zeta.
  pose proof (decompose_rows_sim n r rn (conj Hrange Hinj) F Hrn) as HS.
  assert (Hsame : forall F' M, sim n r rn F F' M ->
    (forall a b, (a < rn)%nat -> (b < rn)%nat -> F' (n * r a + r b)%Z = M a b) /\
    (forall o, (forall a b, (a < rn)%nat -> (b < rn)%nat -> o <> (n * r a + r b)%Z) -> F' o = F o)).
  { intros F' M (H1 & H2). split; [exact H1|]. intros o Ho. apply H2.
    intros (a & b & Ha & Hb & E). exact (Ho a b Ha Hb E). }
  change (gather n r F) with (fun a b : nat => F (n * r a + r b)%Z) in HS.
  destruct (decompose_rows n r rn F) as [F'|[i F']], (decompose rn (fun a b : nat => F (n * r a + r b)%Z)) as [M|[i' M]].
  - now apply Hsame.
  - contradiction.
  - contradiction.
  - destruct HS as [E HS]. split; [exact E|]. now apply Hsame.
Qed.
Print Assumptions C05_row_list.

(** C06: Invert leaves a symmetric two-sided inverse of the product. *)
Theorem C06_invert n M :
  sym_factors n M -> pivots_nonzero n M ->
  let V := invert n M in
  eqn n (mmul n (ldu_product n M) V) idm /\
  eqn n (mmul n V (ldu_product n M)) idm /\
  (forall i j, (i < n)%nat -> (j < n)%nat -> V i j = V j i).
Proof.
  intros Hs Hp V. destruct (invert_correct n M Hs Hp) as (H1 & H2). fold V in H1, H2.
  split; [exact H1|]. split; [|exact H2].
  assert (HA : forall i j, (i < n)%nat -> (j < n)%nat -> ldu_product n M i j = ldu_product n M j i).
  { intros i j Hi Hj. unfold ldu_product. apply rsum_ext. intros k Hk.
    unfold unitL, unitU.
    destruct (Nat.ltb_spec k i), (Nat.ltb_spec k j); rewrite ?(Hs i k), ?(Hs k j) by assumption;
      rewrite ?(Nat.eqb_sym k i), ?(Nat.eqb_sym k j); try ring;
      destruct (Nat.eqb_spec i k), (Nat.eqb_spec j k); try lia; ring. }
  intros i j Hi Hj. unfold mmul in *. unfold idm in *. rewrite Nat.eqb_sym. rewrite <- (H1 j i Hj Hi).
  apply rsum_ext. intros k Hk. rewrite (H2 i k), (HA k j) by assumption. ring.
Qed.
Print Assumptions C06_invert.

(** ** Non-vacuity *)

(** Chain of three nodes with conductances to ground. *)
Definition chain3 : nat -> nat -> R := fun i j =>
  if Nat.eqb i j then 3 else if Nat.eqb (i + 1) j || Nat.eqb (j + 1) i then -1 else 0.

Example chain3_dominant : strictly_dominant 3 chain3.
Proof.
  split; [|split].
  - intros i j _ _. unfold chain3. rewrite (Nat.eqb_sym i j), orb_comm. reflexivity.
  - intros i j _ _ Hne. unfold chain3. destruct (Nat.eqb_spec i j); [lia|]. destruct (_ || _); lra.
  - intros i Hi. destruct i as [|[|[|i]]]; [| | |lia]; cbn; unfold Rabs;
      repeat destruct Rcase_abs; lra.
Qed.

Example chain3_decomposes : exists M y,
  decompose 3 chain3 = inl M /\ solve M (fun i => INR i) (fun _ => 0) 3 = inl y /\
  forall k, (k < 3)%nat -> 0 < M k k <= chain3 k k.
Proof.
  destruct (C03_dominant_succeeds 3 chain3 ltac:(lia) chain3_dominant) as (M & HM & Hp & _).
  destruct (C02_solve 3 M (fun i => INR i) (fun _ => 0) ltac:(lia)) as (y & Hy & _).
  { intros k Hk. pose proof (Hp k Hk). lra. }
  eauto.
Qed.

(** Hypotheses of the exact form: L has one multiplier -1/2, D = (2, 3/2). *)
Definition exL : nat -> nat -> R := fun i j => if Nat.ltb j i then - / 2 else 0.
Definition exD : nat -> R := fun k => if Nat.eqb k 0 then 2 else 3 / 2.
Definition exA : nat -> nat -> R := fun i j => if Nat.eqb i j then 2 else -1.
Example ex_exact : is_ldl 2 exA exL exD /\ clear_of_band 2 exL exD /\ forall k, (k < 2)%nat -> 0 < exD k.
Proof.
  assert (Ht : tiny < / 4).
  { unfold tiny. apply Rinv_lt_contravar; [|apply IZR_lt; reflexivity].
    rewrite <- mult_IZR. apply (IZR_lt 0). reflexivity. }
  split; [|split].
  - intros i j Hji Hi. destruct i as [|[|i]]; [| |lia]; destruct j as [|[|j]]; try lia; cbn;
      unfold unitL, exA, exL, exD; cbn; lra.
  - intros i k Hk Hi. right. destruct i as [|[|i]]; try lia. destruct k; [|lia]. cbn. unfold exL, exD. cbn. lra.
  - intros k _. unfold exD. destruct (Nat.eqb k 0); lra.
Qed.

Example ex_invert : sym_factors 2 exA /\ pivots_nonzero 2 exA.
Proof.
  split.
  - intros i j _ _. unfold exA. now rewrite Nat.eqb_sym.
  - intros k _. unfold exA. rewrite Nat.eqb_refl. lra.
Qed.

Example ex_rows : let r := fun a => Z.of_nat (2 * a) in
  (forall a, (a < 2)%nat -> (0 <= r a < 5)%Z) /\
  (forall a b, (a < 2)%nat -> (b < 2)%nat -> r a = r b -> a = b).
Proof. cbv zeta. split; intros; lia. Qed.
