(** Facts about the CholeskyLdu model over the reals. *)
From Coq Require Import Reals Lra Lia List Arith Bool ZArith FunctionalExtensionality Psatz.
From Verif Require Import Num Loops Ldu Spec_Ldu.
Local Open Scope R_scope.


Ltac natcases :=
  repeat match goal with
  | |- context [Nat.ltb ?a ?b] => destruct (Nat.ltb_spec a b); try lia
  | |- context [Nat.eqb ?a ?b] => destruct (Nat.eqb_spec a b); try lia
  end.

Lemma unitL_lt M i k : (k < i)%nat -> unitL M i k = M i k.
Proof. intros H. unfold unitL. natcases. reflexivity. Qed.
Lemma unitL_eq M i : unitL M i i = 1.
Proof. unfold unitL. natcases. reflexivity. Qed.
Lemma unitL_gt M i k : (i < k)%nat -> unitL M i k = 0.
Proof. intros H. unfold unitL. natcases. reflexivity. Qed.
Lemma unitU_lt M k j : (k < j)%nat -> unitU M k j = M k j.
Proof. intros H. unfold unitU. natcases. reflexivity. Qed.
Lemma unitU_eq M i : unitU M i i = 1.
Proof. unfold unitU. natcases. reflexivity. Qed.
Lemma unitU_gt M k j : (j < k)%nat -> unitU M k j = 0.
Proof. intros H. unfold unitU. natcases. reflexivity. Qed.

Lemma ldu_product_lower n M i j : (j <= i)%nat -> (i < n)%nat ->
  ldu_product n M i j
  = rsum j (fun k => M i k * M k k * M k j) + unitL M i j * M j j.
Proof.
  intros Hji Hi. unfold ldu_product.
  rewrite (rsum_tail0 (S j) n) by (try lia; intros k Hk; rewrite (unitU_gt M k j) by lia; lra).
  cbn. rewrite unitU_eq. f_equal; [|lra].
  apply rsum_ext. intros k Hk. rewrite unitL_lt by lia. rewrite unitU_lt by lia. reflexivity.
Qed.

Lemma ldu_product_upper n M i j : (i <= j)%nat -> (j < n)%nat ->
  ldu_product n M i j
  = rsum i (fun k => M i k * M k k * M k j) + M i i * unitU M i j.
Proof.
  intros Hji Hi. unfold ldu_product.
  rewrite (rsum_tail0 (S i) n) by (try lia; intros k Hk; rewrite (unitL_gt M i k) by lia; lra).
  cbn. rewrite unitL_eq. f_equal; [|lra].
  apply rsum_ext. intros k Hk. rewrite unitL_lt by lia. rewrite unitU_lt by lia. reflexivity.
Qed.

(** ** Flush and drop *)

Lemma flushR_err x : Rabs (flushR x - x) <= tiny.
Proof.
  unfold flushR. pose proof tiny_pos.
  destruct (Rltb_spec (- tiny) x); destruct (Rltb_spec x tiny); cbn;
    try (replace (x - x) with 0 by lra; rewrite Rabs_R0; lra).
  apply Rabs_le. lra.
Qed.
Lemma flushR_nonpos x : x <= 0 -> x <= flushR x <= 0.
Proof.
  unfold flushR. pose proof tiny_pos. intros Hx.
  destruct (Rltb_spec (- tiny) x); destruct (Rltb_spec x tiny); cbn; lra.
Qed.
Lemma flushR_id x : x = 0 \/ x <= - tiny -> flushR x = x.
Proof.
  unfold flushR. pose proof tiny_pos. intros Hx.
  destruct (Rltb_spec (- tiny) x); destruct (Rltb_spec x tiny); cbn; lra.
Qed.
Lemma keepR_nonpos x y : x <= 0 -> y <= 0 -> 0 <= keepR x y <= x * y.
Proof.
  unfold keepR. intros Hx Hy.
  destruct (Rltb_spec x (- tiny)); destruct (Rltb_spec y (- tiny)); cbn; nra.
Qed.
Lemma keepR_err x y : x <= 0 -> y <= 0 ->
  Rabs (x * y - keepR x y) <= tiny * (Rabs x + Rabs y).
Proof.
  unfold keepR. intros Hx Hy. pose proof tiny_pos.
  rewrite (Rabs_left1 x), (Rabs_left1 y) by assumption.
  destruct (Rltb_spec x (- tiny)); destruct (Rltb_spec y (- tiny)); cbn;
    apply Rabs_le; nra.
Qed.
Lemma keepR_exact x y :
  (x = 0 \/ x < - tiny) -> (y = 0 \/ y < - tiny) -> keepR x y = x * y.
Proof.
  unfold keepR. pose proof tiny_pos. intros Hx Hy.
  destruct (Rltb_spec x (- tiny)); destruct (Rltb_spec y (- tiny)); cbn; nra.
Qed.

(** ** Signs of the factors *)

Lemma rows_done_nonpos A0 M U m :
  rows_done A0 M U m ->
  (forall r j, (j < r)%nat -> (r < m)%nat -> A0 r j <= 0) ->
  (forall k, (S k < m)%nat -> 0 < M k k) ->
  forall r j, (j < r)%nat -> (r < m)%nat -> U r j <= 0 /\ M r j <= 0.
Proof.
  intros (Hlow & Hdia & Hout) Hneg Hpos r.
  induction r as [r IHr] using lt_wf_ind. intros j.
  induction j as [j IHj] using lt_wf_ind. intros Hjr Hr.
  destruct (Hlow r j Hjr Hr) as (HU & HM & _).
  assert (HUn : U r j <= 0).
  { rewrite HU. apply flushR_nonpos.
    assert (0 <= rsum j (fun k => keepR (U r k) (M j k))).
    { apply rsum_nonneg. intros k Hk. apply keepR_nonpos.
      - apply IHj; lia.
      - apply (IHr j); lia. }
    pose proof (Hneg r j Hjr Hr). lra. }
  split; [exact HUn|].
  rewrite HM. pose proof (Hpos j ltac:(lia)) as Hd.
  apply Rmult_le_reg_r with (M j j); [exact Hd|].
  unfold Rdiv. rewrite Rmult_assoc, Rinv_l by lra. lra.
Qed.

(** ** C01: backward error of the decomposition *)

Lemma rows_done_product A0 M U m :
  rows_done A0 M U m ->
  (forall k, (S k < m)%nat -> 0 < M k k) ->
  (forall r j, (j < r)%nat -> (r < m)%nat -> A0 r j <= 0) ->
  forall r j, (j <= r)%nat -> (r < m)%nat ->
    (r = j -> ldu_product m M r j = A0 r j) /\
    Rabs (ldu_product m M r j - A0 r j)
      <= tiny * (1 + rsum j (fun k => Rabs (M r k) * M k k + Rabs (M j k))) /\
    ldu_product m M j r = ldu_product m M r j.
Proof.
  intros HR Hpos Hneg r j Hjr Hr.
  pose proof (rows_done_nonpos A0 M U m HR Hneg Hpos) as Hnp.
  destruct HR as (Hlow & Hdia & Hout).
  assert (HUM : forall r j, (j < r)%nat -> (r < m)%nat -> U r j = M r j * M j j).
  { intros a b Hab Ha. destruct (Hlow a b Hab Ha) as (_ & E & _). rewrite E.
    pose proof (Hpos b ltac:(lia)). field. lra. }
  assert (Hsym : ldu_product m M j r = ldu_product m M r j).
  { rewrite (ldu_product_lower m M r j), (ldu_product_upper m M j r) by lia.
    f_equal.
    - apply rsum_ext. intros k Hk.
      destruct (Hlow j k) as (_ & _ & E1); try lia.
      destruct (Hlow r k) as (_ & _ & E2); try lia. rewrite E1, E2. ring.
    - destruct (Nat.eq_dec r j) as [->|Hne].
      + rewrite unitL_eq, unitU_eq. ring.
      + rewrite unitL_lt, unitU_lt by lia.
        destruct (Hlow r j) as (_ & _ & E1); try lia. rewrite E1. ring. }
  split; [|split; [|exact Hsym]].
  - intros ->. rewrite ldu_product_lower by lia. rewrite unitL_eq.
    rewrite (Hdia j) at 1 by lia.
    enough (rsum j (fun k => M j k * M k k * M k j) = rsum j (fun k => U j k * M j k)) by lra.
    apply rsum_ext. intros k Hk. rewrite HUM by lia.
    destruct (Hlow j k) as (_ & _ & E1); try lia. rewrite E1. ring.
  - destruct (Nat.eq_dec r j) as [->|Hne].
    + rewrite ldu_product_lower by lia. rewrite unitL_eq.
      rewrite (Hdia j) at 1 by lia.
      replace (rsum j (fun k => M j k * M k k * M k j)) with (rsum j (fun k => U j k * M j k)).
      * match goal with |- Rabs ?x <= _ => replace x with 0 by lra end.
        rewrite Rabs_R0. pose proof tiny_pos.
        assert (0 <= rsum j (fun k => Rabs (M j k) * M k k + Rabs (M j k))).
        { apply rsum_nonneg. intros k Hk. pose proof (Rabs_pos (M j k)).
          pose proof (Hpos k ltac:(lia)). nra. }
        nra.
      * apply rsum_ext. intros k Hk. rewrite HUM by lia.
        destruct (Hlow j k) as (_ & _ & E1); try lia. rewrite E1. ring.
    + assert (Hlt : (j < r)%nat) by lia.
      rewrite ldu_product_lower by lia. rewrite unitL_lt by lia.
      rewrite <- HUM by lia.
      destruct (Hlow r j Hlt Hr) as (HU & _ & _).
      set (S1 := rsum j (fun k => keepR (U r k) (M j k))) in *.
      set (S2 := rsum j (fun k => M r k * M k k * M k j)).
      assert (HS2 : S2 = rsum j (fun k => U r k * M j k)).
      { apply rsum_ext. intros k Hk. rewrite HUM by lia.
        destruct (Hlow j k) as (_ & _ & E1); try lia. rewrite E1. reflexivity. }
      assert (Hdiff : Rabs (S2 - S1) <= tiny * rsum j (fun k => Rabs (M r k) * M k k + Rabs (M j k))).
      { rewrite HS2. unfold S1. rewrite <- rsum_minus.
        eapply Rle_trans; [apply rsum_abs|].
        rewrite <- rsum_scal. apply rsum_le. intros k Hk.
        eapply Rle_trans; [apply keepR_err; apply Hnp; lia|].
        rewrite (HUM r k) by lia. rewrite Rabs_mult.
        rewrite (Rabs_right (M k k)) by (pose proof (Hpos k ltac:(lia)); lra). lra. }
      pose proof (flushR_err (A0 r j - S1)) as Hfl. rewrite <- HU in Hfl.
      replace (S2 + U r j - A0 r j) with ((S2 - S1) + (U r j - (A0 r j - S1))) by ring.
      eapply Rle_trans; [apply Rabs_triang|]. lra.
Qed.

Lemma decompose_pos_pivots n A M : (1 <= n)%nat -> 0 < A 0%nat 0%nat ->
  decompose n A = inl M -> forall k, (k < n)%nat -> 0 < M k k.
Proof.
  intros Hn H0 Hd k Hk. pose proof (decompose_spec n A Hn) as HS. rewrite Hd in HS.
  destruct HS as (U & (Hlow & Hdia & Hout) & Hpos).
  destruct k as [|k].
  - rewrite Hdia by lia. cbn. lra.
  - apply Hpos. lia.
Qed.

Theorem decompose_product_close n A M :
  (1 <= n)%nat -> 0 < A 0%nat 0%nat ->
  (forall i j, (j < i)%nat -> (i < n)%nat -> A i j <= 0) ->
  decompose n A = inl M ->
  forall i j, (j <= i)%nat -> (i < n)%nat ->
    ldu_product n M i i = A i i /\
    Rabs (ldu_product n M i j - A i j)
      <= tiny * (1 + rsum j (fun k => Rabs (M i k) * M k k + Rabs (M j k))) /\
    ldu_product n M j i = ldu_product n M i j.
Proof.
  intros Hn H0 Hneg Hd i j Hji Hi.
  pose proof (decompose_pos_pivots n A M Hn H0 Hd) as Hp.
  pose proof (decompose_spec n A Hn) as HS. rewrite Hd in HS.
  destruct HS as (U & HR & Hpos).
  assert (Hp' : forall k, (S k < n)%nat -> 0 < M k k) by (intros; apply Hp; lia).
  destruct (rows_done_product A M U n HR Hp' Hneg i i ltac:(lia) Hi) as (E & _ & _).
  destruct (rows_done_product A M U n HR Hp' Hneg i j Hji Hi) as (_ & E2 & E3).
  auto.
Qed.

(** ** C01, exact part: the factorisation outside the flush band *)


Lemma is_ldl_lower n A L D i j : is_ldl n A L D -> (j < i)%nat -> (i < n)%nat ->
  A i j = rsum j (fun k => L i k * D k * L j k) + L i j * D j.
Proof.
  intros H Hji Hi. rewrite H by lia.
  rewrite (rsum_tail0 (S j) n) by (try lia; intros k Hk; rewrite (unitL_gt L j k) by lia; lra).
  cbn. rewrite unitL_eq, (unitL_lt L i j) by lia. f_equal; [|lra].
  apply rsum_ext. intros k Hk. rewrite !unitL_lt by lia. reflexivity.
Qed.
Lemma is_ldl_diag n A L D i : is_ldl n A L D -> (i < n)%nat ->
  A i i = rsum i (fun k => L i k * D k * L i k) + D i.
Proof.
  intros H Hi. rewrite H by lia.
  rewrite (rsum_tail0 (S i) n) by (try lia; intros k Hk; rewrite (unitL_gt L i k) by lia; lra).
  cbn. rewrite unitL_eq. f_equal; [|lra].
  apply rsum_ext. intros k Hk. rewrite !unitL_lt by lia. reflexivity.
Qed.

Lemma rows_done_exact n A L D M U m :
  is_ldl n A L D -> clear_of_band n L D -> (forall k, (k < n)%nat -> 0 < D k) ->
  rows_done A M U m -> (m <= n)%nat ->
  forall r, (r < m)%nat ->
    (forall j, (j < r)%nat -> U r j = L r j * D j /\ M r j = L r j) /\ M r r = D r.
Proof.
  intros HA HB HD (Hlow & Hdia & Hout) Hmn r.
  induction r as [r IHr] using lt_wf_ind. intros Hr.
  assert (Hrow : forall j, (j < r)%nat -> U r j = L r j * D j /\ M r j = L r j).
  { intros j. induction j as [j IHj] using lt_wf_ind. intros Hj.
    destruct (Hlow r j Hj Hr) as (HU & HM & _).
    destruct (IHr j Hj ltac:(lia)) as (Hj1 & Hj2).
    assert (E : U r j = L r j * D j).
    { rewrite HU. rewrite (is_ldl_lower n A L D r j HA Hj) by lia.
      replace (rsum j (fun k => keepR (U r k) (M j k)))
        with (rsum j (fun k => L r k * D k * L j k)).
      - replace (_ + L r j * D j - _) with (L r j * D j) by lra.
        apply flushR_id. destruct (HB r j Hj ltac:(lia)) as [E|[E1 E2]].
        + left. rewrite E. lra.
        + right. lra.
      - apply rsum_ext. intros k Hk.
        destruct (IHj k ltac:(lia) ltac:(lia)) as [E1 _]. rewrite E1.
        destruct (Hj1 k Hk) as [_ E2]. rewrite E2. symmetry. apply keepR_exact.
        + destruct (HB r k ltac:(lia) ltac:(lia)) as [E|[? ?]]; [left; rewrite E; lra|auto].
        + destruct (HB j k ltac:(lia) ltac:(lia)) as [E|[? ?]]; auto. }
    split; [exact E|]. rewrite HM, E, Hj2. pose proof (HD j ltac:(lia)). field. lra. }
  split; [exact Hrow|].
  rewrite Hdia by lia. rewrite (is_ldl_diag n A L D r HA) by lia.
  replace (rsum r (fun k => U r k * M r k)) with (rsum r (fun k => L r k * D k * L r k)); [lra|].
  apply rsum_ext. intros k Hk. destruct (Hrow k Hk) as [E1 E2]. rewrite E1, E2. ring.
Qed.

Theorem decompose_exact n A L D :
  (1 <= n)%nat -> is_ldl n A L D -> clear_of_band n L D ->
  (forall k, (k < n)%nat -> 0 < D k) ->
  exists M, decompose n A = inl M /\
    (forall i, (i < n)%nat -> M i i = D i) /\
    (forall i j, (j < i)%nat -> (i < n)%nat -> M i j = L i j /\ M j i = L i j) /\
    (forall i j, (n <= i)%nat \/ (n <= j)%nat -> M i j = A i j).
Proof.
  intros Hn HA HB HD. pose proof (decompose_spec n A Hn) as HS.
  destruct (decompose n A) as [M|[r M]].
  - exists M. destruct HS as (U & HR & Hpos).
    pose proof (rows_done_exact n A L D M U n HA HB HD HR (le_n n)) as HE.
    split; [reflexivity|]. split; [|split].
    + intros i Hi. now apply HE.
    + intros i j Hji Hi. destruct (HE i Hi) as [H1 _].
      destruct (H1 j Hji) as [_ E]. destruct HR as (Hlow & _ & _).
      destruct (Hlow i j Hji Hi) as (_ & _ & E2). rewrite E2, E. auto.
    + intros i j Hij. destruct HR as (_ & _ & Hout). now apply Hout.
  - exfalso. destruct HS as (Hr & Hle & U & HR & Hpos).
    pose proof (rows_done_exact n A L D M U (S r) HA HB HD HR ltac:(lia) r ltac:(lia)) as [_ E].
    pose proof (HD r ltac:(lia)). lra.
Qed.


Lemma lower_k_spec (L : mat R) (B : nat -> R) k (x : nat -> R) :
  let y := lower_k L B k x in
  (forall a, a <> k -> y a = x a) /\ y k = B k - rsum k (fun i => L k i * x i).
Proof.
  cbn zeta. unfold lower_k. rnum.
  pose proof (loop_inv (fun m (y : nat -> R) =>
     (m <= k)%nat ->
     (forall a, a <> k -> y a = x a) /\ y k = B k - rsum m (fun i => L k i * x i))
     (fun i y => updv y k (y k - y i * L k i)) k 0 (updv x k (B k))) as HI.
  cbn beta in HI. rewrite Nat.add_0_l in HI. apply HI; clear HI; auto.
  - intros _. split.
    + intros a Ha. now rewrite updv_neq.
    + rewrite updv_eq. cbn. lra.
  - intros i y Hi IH Hik. destruct IH as [Hun Hk]; [lia|]. split.
    + intros a Ha. rewrite updv_neq by assumption. now apply Hun.
    + rewrite updv_eq, Hk, (Hun i) by lia. cbn. lra.
Qed.

Lemma solve_lower_spec (L : mat R) (B x : nat -> R) n : (1 <= n)%nat ->
  let y := solve_lower L B x n in
  (forall k, (k < n)%nat -> y k = B k - rsum k (fun i => L k i * y i)) /\
  (forall k, (n <= k)%nat -> y k = x k).
Proof.
  intros Hn. cbn zeta. unfold solve_lower.
  pose proof (loop_inv (fun m (y : nat -> R) =>
     (forall k, (k < m)%nat -> y k = B k - rsum k (fun i => L k i * y i)) /\
     (forall k, (m <= k)%nat -> y k = x k))
     (lower_k L B) (n - 1) 1 (updv x 0 (B 0%nat))) as HI.
  cbn beta in HI. replace (1 + (n - 1))%nat with n in HI by lia.
  apply HI; clear HI.
  - split.
    + intros k Hk. replace k with 0%nat by lia. rewrite updv_eq. cbn. lra.
    + intros k Hk. now rewrite updv_neq by lia.
  - intros k y Hk (H1 & H2). destruct (lower_k_spec L B k y) as (E1 & E2).
    split.
    + intros k' Hk'. destruct (Nat.eq_dec k' k) as [->|Hne].
      * rewrite E2. f_equal. apply rsum_ext. intros i Hi. now rewrite E1 by lia.
      * rewrite E1 by assumption. rewrite H1 by lia. f_equal.
        apply rsum_ext. intros i Hi. now rewrite E1 by lia.
    + intros k' Hk'. rewrite E1 by lia. apply H2. lia.
Qed.

Lemma diag_spec (M : mat R) n (x : nat -> R) : pivots_nonzero n M ->
  exists y, loopE (diag_k M) 0 n x = inl y /\
    (forall k, (k < n)%nat -> y k = x k / M k k) /\ (forall k, (n <= k)%nat -> y k = x k).
Proof.
  intros Hp.
  pose proof (loopE_inv (fun m (y : nat -> R) =>
     (forall k, (k < m)%nat -> y k = x k / M k k) /\ (forall k, (m <= k)%nat -> y k = x k))
     (fun _ : nat * (nat -> R) => False) (diag_k M) n 0 x) as HI.
  cbn beta in HI. rewrite Nat.add_0_l in HI.
  destruct (loopE (diag_k M) 0 n x) as [y|e].
  - exists y. split; [reflexivity|]. apply HI; clear HI.
    + split; [intros; lia | auto].
    + intros i y' Hi (H1 & H2). unfold diag_k. rnum.
      rewrite Reqb_false by (apply Hp; lia). split.
      * intros k Hk. destruct (Nat.eq_dec k i) as [->|Hne].
        -- rewrite updv_eq, H2 by lia. reflexivity.
        -- rewrite updv_neq by assumption. apply H1. lia.
      * intros k Hk. rewrite updv_neq by lia. apply H2. lia.
  - exfalso. apply HI; clear HI.
    + split; [intros; lia | auto].
    + intros i y' Hi (H1 & H2). unfold diag_k. rnum.
      rewrite Reqb_false by (apply Hp; lia). split.
      * intros k Hk. destruct (Nat.eq_dec k i) as [->|Hne].
        -- rewrite updv_eq, H2 by lia. reflexivity.
        -- rewrite updv_neq by assumption. apply H1. lia.
      * intros k Hk. rewrite updv_neq by lia. apply H2. lia.
Qed.

Lemma upper_k_spec (U : mat R) n k (x : nat -> R) : (k < n)%nat ->
  let y := upper_k U n k x in
  (forall a, a <> k -> y a = x a) /\
  y k = x k - rsum (n - (k + 1)) (fun i => U k (k + 1 + i)%nat * x (k + 1 + i)%nat).
Proof.
  intros Hk. cbn zeta. unfold upper_k. rnum.
  pose proof (loop_inv (fun m (y : nat -> R) =>
     (forall a, a <> k -> y a = x a) /\
     y k = x k - rsum (m - (k + 1)) (fun i => U k (k + 1 + i)%nat * x (k + 1 + i)%nat))
     (fun i y => updv y k (y k - y i * U k i)) (n - (k + 1)) (k + 1) x) as HI.
  cbn beta in HI. replace (k + 1 + (n - (k + 1)))%nat with n in HI by lia.
  apply HI; clear HI.
  - split; auto. replace (k + 1 - (k + 1))%nat with 0%nat by lia. cbn. lra.
  - intros i y Hi (Hun & Hyk). split.
    + intros a Ha. rewrite updv_neq by assumption. now apply Hun.
    + rewrite updv_eq, Hyk, (Hun i) by lia.
      replace (S i - (k + 1))%nat with (S (i - (k + 1))) by lia. cbn.
      replace (k + 1 + (i - (k + 1)))%nat with i by lia. lra.
Qed.

Lemma solve_upper_spec (U : mat R) (x : nat -> R) n : (1 <= n)%nat ->
  let y := solve_upper U x x true n in
  (forall k, (k < n)%nat ->
     y k = x k - rsum (n - (k + 1)) (fun i => U k (k + 1 + i)%nat * y (k + 1 + i)%nat)) /\
  (forall k, (n <= k)%nat -> y k = x k).
Proof.
  intros Hn. cbn zeta. unfold solve_upper.
  match goal with |- context [loop ?f _ _ ?s] =>
  pose proof (loop_inv (fun m (y : nat -> R) =>
     (forall k, (n - 1 - m <= k < n)%nat ->
        y k = x k - rsum (n - (k + 1)) (fun i => U k (k + 1 + i)%nat * y (k + 1 + i)%nat)) /\
     (forall k, (k < n - 1 - m)%nat \/ (n <= k)%nat -> y k = x k)) f (n - 1) 0 s) as HI
  end.
  cbn beta in HI. rewrite Nat.add_0_l in HI.
  replace (n - 1 - (n - 1))%nat with 0%nat in HI by lia.
  match type of HI with ?P -> _ => assert (H0 : P) end.
  { split.
    - intros k Hk. replace k with (n - 1)%nat by lia. rewrite updv_eq.
      replace (n - (n - 1 + 1))%nat with 0%nat by lia. cbn. lra.
    - intros k Hk. now rewrite updv_neq by lia. }
  specialize (HI H0). clear H0.
  match type of HI with ?P -> _ => assert (H0 : P) end.
  { intros m y Hm (H1 & H2). cbn zeta. set (k := (n - 2 - m)%nat) in *.
    destruct (upper_k_spec U n k (updv y k (y k)) ltac:(lia)) as (E1 & E2).
    cbn zeta in *. rewrite updv_eq in E2. split.
    - intros k' Hk'. destruct (Nat.eq_dec k' k) as [->|Hne].
      + rewrite E2. f_equal; [apply H2; lia|]. apply rsum_ext. intros i Hi.
        rewrite (E1 (k + 1 + i)%nat) by lia. reflexivity.
      + rewrite E1 by assumption. rewrite updv_neq by assumption.
        rewrite H1 by lia. f_equal. apply rsum_ext. intros i Hi.
        rewrite (E1 (k' + 1 + i)%nat) by lia. rewrite updv_neq by lia. reflexivity.
    - intros k' Hk'. rewrite E1 by lia. rewrite updv_neq by lia. apply H2. lia. }
  destruct (HI H0) as (H1 & H2). split.
  - intros k Hk. apply H1. lia.
  - intros k Hk. apply H2. lia.
Qed.

Theorem solve_correct n M B x :
  (1 <= n)%nat -> pivots_nonzero n M ->
  exists y, solve M B x n = inl y /\
    (forall i, (i < n)%nat -> mat_vec n (ldu_product n M) y i = B i) /\
    (forall i, (n <= i)%nat -> y i = x i).
Proof.
  intros Hn Hp. unfold solve.
  destruct (solve_lower_spec M B x n Hn) as (HL & HLo). cbn zeta in *.
  set (w := solve_lower M B x n) in *.
  destruct (diag_spec M n w Hp) as (z & -> & Hz & Hzo).
  destruct (solve_upper_spec M z n Hn) as (HU & HUo). cbn zeta in *.
  set (y := solve_upper M z z true n) in *.
  exists y. split; [reflexivity|]. split.
  - intros i Hi. unfold mat_vec, ldu_product.
    (* sum over c of (sum over k) = sum over k of l*d*(sum over c u*y) *)
    transitivity (rsum n (fun k => unitL M i k * M k k * rsum n (fun c => unitU M k c * y c))).
    { rewrite (rsum_ext n _ (fun c => rsum n (fun k => unitL M i k * M k k * unitU M k c * y c))).
      - rewrite rsum_swap. apply rsum_ext. intros k Hk.
        rewrite <- rsum_scal. apply rsum_ext. intros c Hc. ring.
      - intros c Hc. rewrite <- rsum_scal_r. reflexivity. }
    transitivity (rsum n (fun k => unitL M i k * w k)).
    { apply rsum_ext. intros k Hk.
      assert (E : rsum n (fun c => unitU M k c * y c) = z k).
      { transitivity (rsum (k + (1 + (n - (k + 1)))) (fun c => unitU M k c * y c)).
        { f_equal. lia. }
        rewrite rsum_split. rewrite (rsum_zero k) by (intros c Hc; rewrite unitU_gt by lia; lra).
        rewrite rsum_split. cbn [rsum]. rewrite Nat.add_0_r, unitU_eq.
        pose proof (HU k Hk) as HUk.
        match goal with |- _ + (_ + rsum ?a ?f) = _ =>
          assert (E2 : rsum a f = rsum a (fun i => M k (k + 1 + i)%nat * y (k + 1 + i)%nat)) end.
        2: { rewrite E2. lra. }
        - apply rsum_ext. intros c Hc. rewrite unitU_lt by lia.
          replace (k + (1 + c))%nat with (k + 1 + c)%nat by lia. reflexivity. }
      rewrite E. rewrite Hz by assumption. field. now apply Hp. }
    rewrite (rsum_tail0 (S i) n) by (try lia; intros k Hk; rewrite unitL_gt by lia; lra).
    cbn. rewrite unitL_eq. pose proof (HL i Hi) as HLi.
    assert (E2 : rsum i (fun k => unitL M i k * w k) = rsum i (fun k => M i k * w k)).
    2: { rewrite E2. lra. }
    apply rsum_ext. intros k Hk. rewrite unitL_lt by lia. reflexivity.
  - intros i Hi. rewrite HUo, Hzo, HLo by lia. reflexivity.
Qed.

Lemma solve_zero_pivot n M B x k :
  (k < n)%nat -> M k k = 0 -> (forall j, (j < k)%nat -> M j j <> 0) ->
  exists y, solve M B x n = inr (k, y).
Proof.
  intros Hk H0 Hp. unfold solve.
  set (w := solve_lower M B x n). clearbody w.
  assert (H : forall c lo x, (lo <= k < lo + c)%nat ->
            exists y, loopE (diag_k M) lo c x = inr (k, y)).
  { induction c as [|c IH]; intros lo v Hlo; [lia|]. cbn.
    unfold diag_k at 1. rnum. destruct (Reqb_spec (M lo lo) 0) as [E|E].
    - destruct (Nat.eq_dec lo k) as [->|Hne]; [eauto|].
      exfalso. apply (Hp lo); [lia | exact E].
    - destruct (Nat.eq_dec lo k) as [->|Hne]; [contradiction|].
      apply IH. lia. }
  destruct (H n 0%nat w ltac:(lia)) as (y & ->). eauto.
Qed.
