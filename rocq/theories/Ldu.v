(** CholeskyLdu: decomposition, solve and inversion.
    Source: /repo/ms-utils/math/linear_algebra/CholeskyLdu.cpp. *)
From Coq Require Import Reals Lra Lia List Arith Bool ZArith FunctionalExtensionality.
From Verif Require Import Num Loops Spec_Ldu.

(** The code addresses entry (i,k) of the row-major array [A] as [*(p_i + k)]
    with [p_i = A + i*n] and [k < n]; we address it as [A i k]. *)
Definition mat (T : Type) := nat -> nat -> T.
Definition upd {T} (A : mat T) (i j : nat) (v : T) : mat T :=
  fun a b => if Nat.eqb a i && Nat.eqb b j then v else A a b.

Section Model.
  Context {T : Type} `{Num T}.

  (** CholeskyLdu.cpp:79, [limit = -1.0E-100]. *)
  Definition ldu_limit : T := ndec (-1) (-100).

  (** CholeskyLdu.cpp:82-84. *)
  Definition dec_k (i j k : nat) (A : mat T) : mat T :=
    if (A i k <~ ldu_limit) && (A j k <~ ldu_limit)
    then upd A i j (A i j -~ A i k *~ A j k)
    else A.

  (** CholeskyLdu.cpp:79-91, body of the [j] loop. *)
  Definition dec_j (i j : nat) (A : mat T) : mat T :=
    let A1 := loop (dec_k i j) 0 j A in
    if (ldu_limit <~ A1 i j) && (A1 i j <~ nopp ldu_limit)
    then upd A1 i j n0
    else A1.

  (** CholeskyLdu.cpp:97-100, body of the second [k] loop. *)
  Definition dec_scale (i k : nat) (A : mat T) : mat T :=
    let ld := A i k /~ A k k in
    let A1 := upd A i i (A i i -~ A i k *~ ld) in
    let A2 := upd A1 i k ld in
    upd A2 k i ld.

  (** CholeskyLdu.cpp:78-108, body of the [i] loop; [inr (i, A)] is the
      exception "failed at row i" together with the array left behind. *)
  Definition dec_row (i : nat) (A : mat T) : mat T + (nat * mat T) :=
    let A1 := loop (dec_j i) 0 i A in
    let A2 := loop (dec_scale i) 0 i A1 in
    if A2 i i <=~ n0 then inr (i, A2) else inl A2.

  (** CholeskyLdu.cpp:63-110, Decompose(double*, int). *)
  Definition decompose (n : nat) (A : mat T) : mat T + (nat * mat T) :=
    loopE dec_row 1 (n - 1) A.

  Local Notation vec := (nat -> T).
  Definition updv (x : vec) (i : nat) (v : T) : vec :=
    fun a => if Nat.eqb a i then v else x a.

  (** CholeskyLdu.cpp:301-312, SolveUnitLowerTriangular. *)
  Definition lower_k (L : mat T) (B : vec) (k : nat) (x : vec) : vec :=
    loop (fun i x => updv x k (x k -~ x i *~ L k i)) 0 k (updv x k (B k)).
  Definition solve_lower (L : mat T) (B x : vec) (n : nat) : vec :=
    loop (lower_k L B) 1 (n - 1) (updv x 0 (B 0)).

  (** CholeskyLdu.cpp:366-378, SolveUnitUpperTriangular; the [k] loop counts
      down from n-2, so iteration [m] handles row [n-2-m].  [B] and [x] may be
      the same array (Solve passes [x] twice, CholeskyLdu.cpp:244), so the
      right-hand side is read from the current array when [same] holds. *)
  Definition upper_k (U : mat T) (n : nat) (k : nat) (x : vec) : vec :=
    loop (fun i x => updv x k (x k -~ x i *~ U k i)) (k + 1) (n - (k + 1)) x.
  Definition solve_upper (U : mat T) (B x : vec) (same : bool) (n : nat) : vec :=
    loop (fun m x =>
            let k := n - 2 - m in
            upper_k U n k (updv x k (if same then x k else B k)))
         0 (n - 1) (updv x (n - 1) (if same then x (n - 1) else B (n - 1))).

  (** CholeskyLdu.cpp:232-240. *)
  Definition diag_k (A : mat T) (k : nat) (x : vec) : vec + (nat * vec) :=
    if A k k ==~ n0 then inr (k, x) else inl (updv x k (x k /~ A k k)).

  (** CholeskyLdu.cpp:223-245, Solve; [inr (k, x)] is "failed at row k". *)
  Definition solve (A : mat T) (B x : vec) (n : nat) : vec + (nat * vec) :=
    match loopE (diag_k A) 0 n (solve_lower A B x n) with
    | inl y => inl (solve_upper A y y true n)
    | inr e => inr e
    end.

  (** CholeskyLdu.cpp:332-347, InvertUnitLowerTriangular. *)
  Definition invl_j (i j : nat) (A : mat T) : mat T :=
    loop (fun k A => upd A i j (A i j -~ A i k *~ A k j)) (j + 1) (i - (j + 1))
         (upd A i j (nopp (A i j))).
  Definition invert_lower (n : nat) (A : mat T) : mat T :=
    loop (fun i A => loop (invl_j i) 0 i A) 1 (n - 1) A.

  (** CholeskyLdu.cpp:268-281, second stage of Invert. *)
  Definition inv_i (n j i : nat) (A : mat T) : mat T :=
    let A1 := if Nat.eqb j i then upd A i j (n1 /~ A i i) else upd A i j (A i j /~ A i i) in
    let A2 := loop (fun k A => upd A i j (A i j +~ A k i *~ A k j /~ A k k)) (i + 1) (n - (i + 1)) A1 in
    upd A2 j i (A2 i j).
  Definition inv_j (n j : nat) (A : mat T) : mat T :=
    loop (inv_i n j) j (n - j) A.

  (** CholeskyLdu.cpp:259-282, Invert. *)
  Definition invert (n : nat) (A : mat T) : mat T :=
    loop (inv_j n) 0 n (invert_lower n A).
End Model.

Local Open Scope R_scope.

(** ** Update lemmas *)

Lemma upd_eq {T} (A : mat T) i j v : upd A i j v i j = v.
Proof. unfold upd. now rewrite !Nat.eqb_refl. Qed.
Lemma upd_neq {T} (A : mat T) i j v a b : a <> i \/ b <> j -> upd A i j v a b = A a b.
Proof.
  unfold upd. intros Hn.
  destruct (Nat.eqb_spec a i); destruct (Nat.eqb_spec b j); cbn; auto; lia.
Qed.
Lemma updv_eq {T} (x : nat -> T) i v : updv x i v i = v.
Proof. unfold updv. now rewrite Nat.eqb_refl. Qed.
Lemma updv_neq {T} (x : nat -> T) i v a : a <> i -> updv x i v a = x a.
Proof. unfold updv. intros Hn. destruct (Nat.eqb_spec a i); auto; lia. Qed.

Ltac updsolve :=
  repeat first [ rewrite upd_eq | rewrite upd_neq by lia
               | rewrite updv_eq | rewrite updv_neq by lia ].

(** ** The decomposition over the reals *)

Lemma tiny_pos : 0 < tiny.
Proof. unfold tiny. apply Rinv_0_lt_compat. apply (IZR_lt 0). reflexivity. Qed.
Lemma limit_tiny : (ldu_limit : R) = - tiny.
Proof. unfold ldu_limit, ndec, RNum, Rdec, tiny, Rdiv. lra. Qed.

(** Flush of a computed entry (CholeskyLdu.cpp:89-91). *)
Definition flushR (x : R) : R :=
  if Rltb (- tiny) x && Rltb x tiny then 0 else x.
(** A product that is only used when both factors are below the limit
    (CholeskyLdu.cpp:82). *)
Definition keepR (x y : R) : R :=
  if Rltb x (- tiny) && Rltb y (- tiny) then x * y else 0.

Lemma dec_k_spec i j (A : mat R) : (j < i)%nat ->
  forall m, (m <= j)%nat ->
  let B := loop (dec_k i j) 0 m A in
  (forall a b, a <> i \/ b <> j -> B a b = A a b) /\
  B i j = A i j - rsum m (fun k => keepR (A i k) (A j k)).
Proof.
  intros Hji m Hm.
  apply (loop_inv (fun m (B : mat R) =>
    (m <= j)%nat ->
    (forall a b, a <> i \/ b <> j -> B a b = A a b) /\
    B i j = A i j - rsum m (fun k => keepR (A i k) (A j k)))) with (lo := 0%nat); cbn; auto.
  - intros _. split; auto. lra.
  - intros k B Hk IH Hkj. destruct IH as [Hun Hij]; [lia|].
    unfold dec_k. rewrite limit_tiny. rnum.
    rewrite (Hun i k) by lia. rewrite (Hun j k) by lia.
    cbn [rsum].
    assert (Hkeep : keepR (A i k) (A j k) =
      if Rltb (A i k) (- tiny) && Rltb (A j k) (- tiny) then A i k * A j k else 0)
      by reflexivity.
    rewrite Hkeep. clear Hkeep.
    destruct (Rltb (A i k) (- tiny) && Rltb (A j k) (- tiny)).
    + split.
      * intros a b Hab. rewrite upd_neq by lia. apply Hun; lia.
      * rewrite upd_eq, Hij. lra.
    + split; [exact Hun|]. rewrite Hij. lra.
Qed.

(** Effect of the two inner loops on row [i]. *)
Lemma dec_j_spec i (A : mat R) : forall m, (m <= i)%nat ->
  let B := loop (dec_j i) 0 m A in
  (forall a b, a <> i \/ (m <= b)%nat -> B a b = A a b) /\
  (forall j, (j < m)%nat ->
     B i j = flushR (A i j - rsum j (fun k => keepR (B i k) (A j k)))).
Proof.
  intros m Hm.
  apply (loop_inv (fun m (B : mat R) =>
    (m <= i)%nat ->
    (forall a b, a <> i \/ (m <= b)%nat -> B a b = A a b) /\
    (forall j, (j < m)%nat ->
       B i j = flushR (A i j - rsum j (fun k => keepR (B i k) (A j k)))))) with (lo := 0%nat); cbn; auto.
  - intros _. split; auto. intros; lia.
  - intros j B Hj IH Hji. destruct IH as [Hun Hrow]; [lia|].
    unfold dec_j. rewrite limit_tiny. rnum.
    destruct (dec_k_spec i j B ltac:(lia) j ltac:(lia)) as [Kun Kij].
    cbn zeta in *. rnum. set (C := loop (dec_k i j) 0 j B) in *.
    assert (Hval : C i j = A i j - rsum j (fun k => keepR (C i k) (A j k))).
    { rewrite Kij. rewrite Hun by lia. f_equal. apply rsum_ext. intros k Hk.
      rewrite (Hun j k) by lia. rewrite (Kun i k) by lia. reflexivity. }
    rewrite Ropp_involutive.
    set (D := if Rltb (- tiny) (C i j) && Rltb (C i j) tiny then upd C i j 0 else C).
    assert (HD : forall a b, a <> i \/ b <> j -> D a b = C a b).
    { intros a b Hab. unfold D. destruct (_ && _); [now apply upd_neq | reflexivity]. }
    assert (HDij : D i j = flushR (C i j)).
    { unfold D, flushR. destruct (_ && _); [now rewrite upd_eq | reflexivity]. }
    split.
    + intros a b Hab. rewrite HD by lia. rewrite Kun by lia. apply Hun. lia.
    + intros j' Hj'. destruct (Nat.eq_dec j' j) as [->|Hne].
      * rewrite HDij, Hval. f_equal. f_equal. apply rsum_ext. intros k Hk.
        rewrite HD by lia. reflexivity.
      * rewrite HD by lia. rewrite Kun by lia. rewrite Hrow by lia.
        f_equal. f_equal. apply rsum_ext. intros k Hk.
        rewrite HD by lia. rewrite Kun by lia. reflexivity.
Qed.

Lemma dec_scale_spec i (A : mat R) : forall m, (m <= i)%nat ->
  let B := loop (dec_scale i) 0 m A in
  (forall a b, (a <> i \/ ((m <= b)%nat /\ b <> i)) -> (b <> i \/ (m <= a)%nat) -> B a b = A a b) /\
  B i i = A i i - rsum m (fun k => A i k * (A i k / A k k)) /\
  (forall k, (k < m)%nat -> B i k = A i k / A k k /\ B k i = A i k / A k k).
Proof.
  intros m Hm.
  apply (loop_inv (fun m (B : mat R) =>
    (m <= i)%nat ->
    (forall a b, (a <> i \/ ((m <= b)%nat /\ b <> i)) -> (b <> i \/ (m <= a)%nat) -> B a b = A a b) /\
    B i i = A i i - rsum m (fun k => A i k * (A i k / A k k)) /\
    (forall k, (k < m)%nat -> B i k = A i k / A k k /\ B k i = A i k / A k k))) with (lo := 0%nat); cbn; auto.
  - intros _. split; [|split]; auto; [lra | intros; lia].
  - intros k B Hk IH Hki. destruct IH as (Hun & Hii & Hrow); [lia|].
    unfold dec_scale. rnum. cbn zeta.
    rewrite (Hun i k) by lia. rewrite (Hun k k) by lia.
    split; [|split].
    + intros a b Ha Hb. rewrite !upd_neq by lia. apply Hun; lia.
    + cbn [rsum]. rewrite upd_neq by lia. rewrite upd_neq by lia. rewrite upd_eq. rewrite Hii. lra.
    + intros k' Hk'. destruct (Nat.eq_dec k' k) as [->|Hne].
      * split; [rewrite upd_neq by lia; now rewrite upd_eq | now rewrite upd_eq].
      * rewrite !upd_neq by lia. apply Hrow. lia.
Qed.

(** What one row of the decomposition does, stated on the array before ([A])
    and after ([B]). *)
Lemma dec_row_spec i (A : mat R) :
  let B := loop (dec_scale i) 0 i (loop (dec_j i) 0 i A) in
  exists u : nat -> R,
    (forall j, (j < i)%nat -> u j = flushR (A i j - rsum j (fun k => keepR (u k) (A j k)))) /\
    (forall j, (j < i)%nat -> B i j = u j / A j j /\ B j i = u j / A j j) /\
    B i i = A i i - rsum i (fun k => u k * (u k / A k k)) /\
    (forall a b, (a <> i \/ (i < b)%nat) -> (b <> i \/ (i < a)%nat) -> B a b = A a b).
Proof.
  cbn zeta.
  destruct (dec_j_spec i A i (le_n i)) as [Jun Jrow]. cbn zeta in *.
  set (C := loop (dec_j i) 0 i A) in *.
  destruct (dec_scale_spec i C i (le_n i)) as (Sun & Sii & Srow). cbn zeta in *.
  exists (fun j => C i j). split; [|split; [|split]].
  - intros j Hj. now apply Jrow.
  - intros j Hj. destruct (Srow j Hj) as [E1 E2].
    rewrite E1, E2. rewrite (Jun j j) by lia. auto.
  - rewrite Sii. rewrite (Jun i i) by lia. f_equal. apply rsum_ext.
    intros k Hk. rewrite (Jun k k) by lia. reflexivity.
  - intros a b Ha Hb. rewrite Sun by lia. apply Jun. lia.
Qed.

(** Facts about the rows already processed; [A0] is the input, [M] the array
    now, [U r j] the entry of row [r] before scaling. *)
Definition rows_done (A0 M : mat R) (U : nat -> nat -> R) (m : nat) : Prop :=
  (forall r j, (j < r)%nat -> (r < m)%nat ->
     U r j = flushR (A0 r j - rsum j (fun k => keepR (U r k) (M j k))) /\
     M r j = U r j / M j j /\ M j r = M r j) /\
  (forall r, (r < m)%nat -> M r r = A0 r r - rsum r (fun k => U r k * M r k)) /\
  (forall a b, (m <= a)%nat \/ (m <= b)%nat -> M a b = A0 a b).

Lemma rows_done_init A0 : rows_done A0 A0 (fun _ _ => 0) 1.
Proof.
  split; [|split].
  - intros; lia.
  - intros r Hr. replace r with 0%nat by lia. cbn. lra.
  - reflexivity.
Qed.

Lemma rows_done_step A0 M U i : (1 <= i)%nat ->
  rows_done A0 M U i ->
  exists U', rows_done A0 (loop (dec_scale i) 0 i (loop (dec_j i) 0 i M)) U' (S i) /\
    (forall r j, (r < i)%nat -> U' r j = U r j) /\
    (forall a b, (a < i)%nat -> (b < i)%nat ->
       loop (dec_scale i) 0 i (loop (dec_j i) 0 i M) a b = M a b).
Proof.
  intros Hi (Hlow & Hdia & Hout).
  destruct (dec_row_spec i M) as (u & Hu & Hrow & Hii & Hun). cbn zeta in *.
  set (B := loop (dec_scale i) 0 i (loop (dec_j i) 0 i M)) in *.
  exists (fun r j => if Nat.eqb r i then u j else U r j).
  split; [|split].
  - split; [|split].
    + intros r j Hjr Hr. destruct (Nat.eqb_spec r i) as [->|Hne].
      * destruct (Hrow j Hjr) as [E1 E2].
        rewrite E1, E2. rewrite (Hun j j) by lia.
        split; [|split]; auto.
        rewrite (Hu j Hjr) at 1. rewrite (Hout i j) by lia.
        f_equal. f_equal. apply rsum_ext. intros k Hk.
        rewrite (Hun j k) by lia. reflexivity.
      * destruct (Hlow r j Hjr ltac:(lia)) as (E1 & E2 & E3).
        rewrite (Hun r j), (Hun j j), (Hun j r) by lia.
        split; [|split]; auto.
        rewrite E1 at 1. f_equal. f_equal. apply rsum_ext. intros k Hk.
        rewrite (Hun j k) by lia. reflexivity.
    + intros r Hr. destruct (Nat.eqb_spec r i) as [->|Hne].
      * rewrite Hii. rewrite (Hout i i) by lia. f_equal. apply rsum_ext.
        intros k Hk. destruct (Hrow k Hk) as [E1 _]. now rewrite E1.
      * rewrite (Hun r r) by lia. rewrite Hdia by lia. f_equal. apply rsum_ext.
        intros k Hk. rewrite (Hun r k) by lia. reflexivity.
    + intros a b Hab. rewrite Hun by lia. apply Hout. lia.
  - intros r j Hr. destruct (Nat.eqb_spec r i); [lia|reflexivity].
  - intros a b Ha Hb. apply Hun; lia.
Qed.

(** Complete description of [decompose] over the reals: on normal return all
    rows below [n] are done and all pivots after the first are positive; on an
    exception at row [r] rows up to and including [r] are done and the pivot of
    row [r] is not positive. *)
Lemma decompose_spec n (A0 : mat R) : (1 <= n)%nat ->
  match decompose n A0 with
  | inl M => exists U, rows_done A0 M U n /\ forall r, (1 <= r < n)%nat -> 0 < M r r
  | inr (r, M) => (1 <= r < n)%nat /\ M r r <= 0 /\
      exists U, rows_done A0 M U (S r) /\ forall k, (1 <= k < r)%nat -> 0 < M k k
  end.
Proof.
  intros Hn. unfold decompose.
  pose proof (loopE_inv
    (fun m (M : mat R) => exists U, rows_done A0 M U m /\ forall r, (1 <= r < m)%nat -> 0 < M r r)
    (fun e : nat * mat R => let (r, M) := e in (1 <= r < n)%nat /\ M r r <= 0 /\
      exists U, rows_done A0 M U (S r) /\ forall k, (1 <= k < r)%nat -> 0 < M k k)
    dec_row (n - 1) 1 A0) as HI.
  replace (1 + (n - 1))%nat with n in HI by lia.
  apply HI; clear HI.
  - exists (fun _ _ => 0). split; [apply rows_done_init | intros; lia].
  - intros i M Hi (U & HR & Hpos).
    destruct (rows_done_step A0 M U i ltac:(lia) HR) as (U' & HR' & HU & HM).
    unfold dec_row. cbn zeta. rnum.
    set (B := loop (dec_scale i) 0 i (loop (dec_j i) 0 i M)) in *.
    destruct (Rleb_spec (B i i) 0).
    + split; [lia|]. split; [assumption|]. exists U'. split; [assumption|].
      intros k Hk. rewrite HM by lia. apply Hpos. lia.
    + exists U'. split; [assumption|]. intros r Hr.
      destruct (Nat.eq_dec r i) as [->|]; [lra|]. rewrite HM by lia. apply Hpos. lia.
Qed.
