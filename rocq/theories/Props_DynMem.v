(** C133: the vector and matrix functions when their arrays overlap.  For any numbers, so also
    for binary64. *)
From Coq Require Import Floats.
From Coq Require Import Reals Bool ZArith Lra Lia List Arith.
From Verif Require Import Num MathUtil Dyn DynMem.
Import ListNotations.
Local Open Scope nat_scope.

(** ** What the functions are to compute, from arrays read before anything is written *)
Section SPEC.
Context {T : Type} {N : Num T}.
(** The sum in the order of the elements, starting from zero. *)
Definition inner (n : nat) (f g : nat -> T) : T :=
  fold_left (fun acc i => acc +~ f i *~ g i) (seq 0 n) n0.
(** [h'] holds [f] in the [n] cells from [A] on and is [h] elsewhere. *)
Definition holds (h h' : mem T) (A n : nat) (f : nat -> T) : Prop :=
  (forall i, i < n -> h' (A + i) = f i) /\ (forall x, x < A \/ A + n <= x -> h' x = h x).
(** The cells of [B] are not written before they are read when an array at [A] is written
    element by element: they start at or after [A], or end before it. *)
Definition readable (A B n : nat) : Prop := A <= B \/ B + n <= A.
Definition apart (A n B m : nat) : Prop := A + n <= B \/ B + m <= A.

(** ** Loops *)
Lemma for_S {S} n (body : nat -> S -> S) s : for_ (Datatypes.S n) body s = body n (for_ n body s).
Proof. unfold for_. rewrite seq_S, fold_left_app. reflexivity. Qed.

Lemma region_loop n : forall (body : nat -> mem T -> mem T) (h0 : mem T) (r : nat -> nat -> bool) (f : nat -> T),
  (forall k h, k < n -> (forall x, (forall j, j < k -> r j x = false) -> h x = h0 x) ->
     (forall x, r k x = true -> body k h x = f x) /\ (forall x, r k x = false -> body k h x = h x)) ->
  (forall k x, k < n -> r k x = true -> for_ n body h0 x = f x) /\
  (forall x, (forall k, k < n -> r k x = false) -> for_ n body h0 x = h0 x).
Proof.
  induction n as [|n IH]; intros body h0 r f H.
  - split; [lia|]. reflexivity.
  - destruct (IH body h0 r f) as [A B].
    { intros k h K. apply H. lia. }
    rewrite for_S. destruct (H n (for_ n body h0)) as [C D]; [lia| |].
    { intros x X. apply B. exact X. }
    split.
    + intros k x K R. destruct (r n x) eqn:E; [exact (C x E)|]. rewrite (D x E).
      assert (k <> n) by congruence. apply (A k x); [lia|exact R].
    + intros x X. rewrite D by (apply X; lia). apply B. intros k K. apply X. lia.
Qed.
Lemma put_same h a (v : T) : put h a v a = v.
Proof. unfold put. now rewrite Nat.eqb_refl. Qed.
Lemma put_other h a (v : T) x : x <> a -> put h a v x = h x.
Proof. unfold put. intro E. now rewrite (proj2 (Nat.eqb_neq _ _) E). Qed.

(** A loop that writes one element each time round. *)
Lemma write_loop n (A : nat) (val : nat -> mem T -> T) (h0 : mem T) (f : nat -> T) :
  (forall k h, k < n -> (forall x, (forall j, j < k -> x <> A + j) -> h x = h0 x) -> val k h = f k) ->
  holds h0 (for_ n (fun i h => put h (A + i) (val i h)) h0) A n f.
Proof.
  intro H.
  destruct (region_loop n (fun i h => put h (A + i) (val i h)) h0 (fun k x => Nat.eqb x (A + k)) (fun x => f (x - A))) as [P Q].
  { intros k h K X. split; intros x E.
    - apply Nat.eqb_eq in E. subst x. rewrite put_same. replace (A + k - A) with k by lia.
      apply H; [exact K|]. intros x Y. apply X. intros j J. apply Nat.eqb_neq. now apply Y.
    - apply Nat.eqb_neq in E. now apply put_other. }
  split.
  - intros i I. rewrite (P i (A + i) I (Nat.eqb_refl _)). f_equal. lia.
  - intros x X. apply Q. intros k K. apply Nat.eqb_neq. lia.
Qed.

(** ** Element by element *)
Theorem C133_elements : forall (h : mem T) A B C n (s : T),
  holds h (zeroV_m h A n) A n (fun _ => n0) /\
  (readable A B n ->
   holds h (setV h A B n) A n (fun i => h (B + i)) /\
   holds h (scaleV_m h A B s n) A n (fun i => h (B + i) *~ s)) /\
  (readable A B n -> readable A C n ->
   holds h (addV_m h A B C n) A n (fun i => h (B + i) +~ h (C + i)) /\
   holds h (subV_m h A B C n) A n (fun i => h (B + i) -~ h (C + i))).
Proof.
  intros h A B C n s.
  assert (R : forall D k (g : mem T), readable A D n -> k < n ->
    (forall x, (forall j, j < k -> x <> A + j) -> g x = h x) -> g (D + k) = h (D + k)).
  { intros D k g V K X. apply X. intros j J. destruct V; lia. }
  split; [now apply write_loop|]. split.
  - intro V. split; apply write_loop; intros k g K X; rewrite (R B k g V K X); reflexivity.
  - intros V W. split; apply write_loop; intros k g K X; rewrite (R B k g V K X), (R C k g W K X); reflexivity.
Qed.

(** ** Sums *)
Lemma acc_loop n a (g : nat -> mem T -> T) (h0 : mem T) (v : nat -> T) :
  (forall j h, j < n -> (forall x, x <> a -> h x = h0 x) -> g j h = v j) ->
  let h := for_ n (fun j h => put h a (h a +~ g j h)) h0 in
  h a = fold_left (fun acc j => acc +~ v j) (seq 0 n) (h0 a) /\ forall x, x <> a -> h x = h0 x.
Proof.
  induction n as [|n IH]; intros H; cbv zeta; [split; reflexivity|]. rewrite for_S, seq_S, fold_left_app.
  cbn [fold_left Nat.add]. destruct IH as [I1 I2]. { intros j h J. apply H. lia. }
  cbv zeta in I1, I2. set (k := for_ n _ h0) in *. split.
  - rewrite put_same, I1. f_equal. apply H; [lia|exact I2].
  - intros x X. rewrite put_other by exact X. now apply I2.
Qed.

Lemma mul_rows (h : mem T) A n (b : nat -> nat -> mem T -> T) (v : nat -> nat -> T) :
  (forall row col g, row < n -> col < n -> (forall x, x < A \/ A + n <= x -> g x = h x) -> b row col g = v row col) ->
  holds h (for_ n (fun row h => for_ n (fun col h => put h (A + row) (h (A + row) +~ b row col h)) h) (zeroV_m h A n))
    A n (fun row => fold_left (fun acc j => acc +~ v row j) (seq 0 n) n0).
Proof.
  intros H. destruct (C133_elements h A 0 0 n n0) as ((Z1 & Z2) & _).
  set (z := zeroV_m h A n) in *.
  destruct (region_loop n (fun row h => for_ n (fun col h => put h (A + row) (h (A + row) +~ b row col h)) h) z
    (fun k x => Nat.eqb x (A + k)) (fun x => fold_left (fun acc j => acc +~ v (x - A) j) (seq 0 n) n0)) as [P Q].
  { intros k g K X.
    assert (U : forall x, x < A \/ A + n <= x -> g x = h x).
    { intros x Y. rewrite X; [now apply Z2|]. intros j J. apply Nat.eqb_neq. lia. }
    destruct (acc_loop n (A + k) (fun col h => b k col h) g (fun j => v k j)) as [W1 W2].
    { intros j g' J Y. apply H; try assumption. intros x E. rewrite Y by lia. now apply U. }
    cbv zeta in W1, W2. split; intros x E.
    - apply Nat.eqb_eq in E. subst x. rewrite W1. replace (A + k - A) with k by lia. f_equal.
      rewrite X; [now apply Z1|]. intros j J. apply Nat.eqb_neq. lia.
    - apply Nat.eqb_neq in E. now apply W2. }
  split.
  - intros i I. rewrite (P i (A + i) I (Nat.eqb_refl _)). replace (A + i - A) with i by lia. reflexivity.
  - intros x X. rewrite Q; [now apply Z2|]. intros k K. apply Nat.eqb_neq. lia.
Qed.

(** Matrix times vector: right whenever the result does not overlap the matrix; it may
    overlap the vector in any way. *)
Theorem C133_matrix_vector : forall (h : mem T) A B C n, apart A n B (n * n) ->
  holds h (mulMV_m h A B C n) A n (fun i => inner n (fun j => h (B + (i * n + j))) (fun j => h (C + j))) /\
  holds h (mulMtV_m h A B C n) A n (fun i => inner n (fun j => h (B + (j * n + i))) (fun j => h (C + j))).
Proof.
  intros h A B C n V. split.
  - unfold mulMV_m, inner. apply (mul_rows h A n (fun row col g => g (B + (row * n + col)) *~ h (C + col))
      (fun row col => h (B + (row * n + col)) *~ h (C + col))).
    intros row col g R K X. rewrite X; [reflexivity|]. assert (row * n + col < n * n) by nia. destruct V; lia.
  - unfold mulMtV_m, inner. apply (mul_rows h A n (fun row col g => g (B + (col * n + row)) *~ h (C + col))
      (fun row col => h (B + (col * n + row)) *~ h (C + col))).
    intros row col g R K X. rewrite X; [reflexivity|]. assert (col * n + row < n * n) by nia. destruct V; lia.
Qed.

(** Matrix times matrix: right however the three overlap. *)
Theorem C133_matrix_matrix : forall (h : mem T) A B C n,
  (forall i j, i < n -> j < n -> mulMM_m h A B C n (A + (i * n + j)) =
     inner n (fun k => h (B + (i * n + k))) (fun k => h (C + (k * n + j)))) /\
  (forall x, x < A \/ A + n * n <= x -> mulMM_m h A B C n x = h x).
Proof.
  intros h A B C n. destruct (C133_elements h A 0 0 (n * n) n0) as ((Z1 & Z2) & _). unfold mulMM_m. cbv zeta.
  set (z := zeroV_m h A (n * n)) in *.
  set (e := fun i j => inner n (fun k => h (B + (i * n + k))) (fun k => h (C + (k * n + j)))).
  destruct (region_loop n (fun row g => for_ n (fun col g => for_ n (fun i g =>
      put g (A + (row * n + col)) (g (A + (row * n + col)) +~ h (B + (row * n + i)) *~ h (C + (i * n + col)))) g) g) z
    (fun k x => (A + k * n <=? x) && (x <? A + k * n + n)) (fun x => e ((x - A) / n) ((x - A) mod n))) as [P Q].
  { intros k g K X.
    assert (G0 : forall j, j < n -> g (A + (k * n + j)) = n0).
    { intros j J. rewrite X; [apply Z1; nia|]. intros i I. apply andb_false_iff. right. apply Nat.ltb_ge. nia. }
    destruct (region_loop n (fun col g => for_ n (fun i g =>
        put g (A + (k * n + col)) (g (A + (k * n + col)) +~ h (B + (k * n + i)) *~ h (C + (i * n + col)))) g) g
      (fun col x => Nat.eqb x (A + (k * n + col))) (fun x => e k (x - A - k * n))) as [P Q].
    { intros col g' L Y.
      destruct (acc_loop n (A + (k * n + col)) (fun i _ => h (B + (k * n + i)) *~ h (C + (i * n + col))) g'
        (fun i => h (B + (k * n + i)) *~ h (C + (i * n + col)))) as [W1 W2]; [reflexivity|].
      cbv zeta in W1, W2. split; intros x E.
      - apply Nat.eqb_eq in E. subst x. rewrite W1. replace (A + (k * n + col) - A - k * n) with col by lia.
        unfold e, inner. f_equal. rewrite Y; [now apply G0|]. intros j J. apply Nat.eqb_neq. lia.
      - apply Nat.eqb_neq in E. now apply W2. }
    split; intros x E.
    - apply andb_true_iff in E. destruct E as [E1 E2]. apply Nat.leb_le in E1. apply Nat.ltb_lt in E2.
      rewrite (P (x - A - k * n) x); [|lia|apply Nat.eqb_eq; lia].
      assert (DV : (x - A) / n = k /\ (x - A) mod n = x - A - k * n).
      { split; symmetry.
        - apply (Nat.div_unique (x - A) n k (x - A - k * n)); nia.
        - apply (Nat.mod_unique (x - A) n k (x - A - k * n)); nia. }
      destruct DV as [-> ->]. reflexivity.
    - apply Q. intros j J. apply Nat.eqb_neq. apply andb_false_iff in E. destruct E as [E|E].
      + apply Nat.leb_gt in E. lia.
      + apply Nat.ltb_ge in E. lia. }
  split.
  - intros i j I J. rewrite (P i (A + (i * n + j)) I).
    + replace (A + (i * n + j) - A) with (j + i * n) by lia.
      rewrite Nat.div_add, Nat.mod_add, Nat.div_small, Nat.mod_small by lia. reflexivity.
    + apply andb_true_iff. split; [apply Nat.leb_le|apply Nat.ltb_lt]; nia.
  - intros x X. rewrite Q; [now apply Z2|]. intros k K. apply andb_false_iff.
    destruct X as [X|X]; [left; apply Nat.leb_gt; nia|right; apply Nat.ltb_ge; nia].
Qed.

(** ** Three elements *)
Lemma put_neq h a (v : T) x : Nat.eqb x a = false -> put h a v x = h x.
Proof. unfold put. now intros ->. Qed.
Ltac reads := repeat (rewrite put_same || rewrite put_other by lia).
Theorem C133_cross : forall (h : mem T) A B C,
  rd3 (crossV3_m h A B C) A = crossV (rd3 h B) (rd3 h C) /\
  (forall x, x < A \/ A + 3 <= x -> crossV3_m h A B C x = h x).
Proof.
  intros h A B C. unfold crossV3_m. cbv zeta. split.
  - unfold rd3 at 1. reads. reflexivity.
  - intros x X. reads. reflexivity.
Qed.

(** The rate of a quaternion: right unless its first cell is one of the quaternion's or of
    the angular velocity's. *)
Theorem C133_rate : forall (h : mem T) D Q W,
  (D < Q \/ Q + 4 <= D) -> (D < W \/ W + 3 <= D) ->
  rd4 (Qdot_m h D Q W) D = qdot (rd4 h Q) (rd3 h W) /\
  (forall x, x < D \/ D + 4 <= x -> Qdot_m h D Q W x = h x).
Proof.
  intros h D Q W HQ HW. unfold Qdot_m. cbv zeta.
  set (h1 := put h D (dot3 (rd3 h (Q + 1)) (rd3 h W))).
  assert (E1 : rd3 h1 W = rd3 h W) by (unfold rd3, h1; rewrite !put_other by lia; reflexivity).
  assert (E2 : rd3 h1 (Q + 1) = rd3 h (Q + 1)) by (unfold rd3, h1; rewrite !put_other by lia; reflexivity).
  assert (E3 : h1 Q = h Q) by (unfold h1; rewrite !put_other by lia; reflexivity).
  rewrite E1, E2, E3.
  set (v := addV (mulMV (skew (rd3 h (Q + 1))) (rd3 h W)) (scaleV (rd3 h W) (nopp (h Q)))).
  set (h2 := wr3 h1 (D + 1) v).
  destruct (C133_elements h2 D D D 4 half) as (_ & S & _). destruct S as [_ [S1 S2]]; [left; lia|].
  assert (F0 : h2 D = dot3 (rd3 h (Q + 1)) (rd3 h W)).
  { unfold h2, wr3, h1. rewrite !put_other by lia. apply put_same. }
  assert (F1 : h2 (D + 1) = v_0 v) by (unfold h2, wr3; reads; reflexivity).
  assert (F2 : h2 (D + 2) = v_1 v) by (unfold h2, wr3; replace (D + 2) with (D + 1 + 1) by lia; reads; reflexivity).
  assert (F3 : h2 (D + 3) = v_2 v) by (unfold h2, wr3; replace (D + 3) with (D + 1 + 2) by lia; reads; reflexivity).
  split.
  - unfold rd4 at 1. pose proof (S1 0 ltac:(lia)) as G. rewrite Nat.add_0_r in G. rewrite G, !S1 by lia.
    rewrite F0, F1, F2, F3. unfold qdot, qvec, rd4, rd3 in *. cbn [q_0 q_1 q_2 q_3] in *.
    unfold v. replace (Q + 1 + 1) with (Q + 2) by lia. replace (Q + 1 + 2) with (Q + 3) by lia. reflexivity.
  - intros x X. rewrite S2 by lia. unfold h2, wr3, h1. rewrite !put_other by lia. reflexivity.
Qed.
Theorem C133_dot : forall (h : mem T) A B n, dotV_m h A B n = inner n (fun i => h (A + i)) (fun i => h (B + i)).
Proof. reflexivity. Qed.
End SPEC.
Print Assumptions C133_elements.
Print Assumptions C133_matrix_vector.
Print Assumptions C133_matrix_matrix.
Print Assumptions C133_cross.
Print Assumptions C133_rate.

(** ** Where they overlap otherwise *)
Local Open Scope R_scope.
(** Adding a vector to itself one element further on adds up what was written before. *)
Theorem C133_shifted_refuted : exists h : mem R,
  addV_m h 1 0 0 2 2%nat <> h 1%nat + h 1%nat.
Proof. exists (fun _ => 1). unfold addV_m, for_, put. cbn [seq fold_left Nat.eqb Nat.add]. rnum. lra. Qed.
(** A product written over the matrix. *)
Theorem C133_over_matrix_refuted : exists h : mem R,
  mulMV_m h 0 0 1 1 0%nat <> h 0%nat * h 1%nat.
Proof.
  exists (fun _ => 1). unfold mulMV_m, zeroV_m, for_, put. cbn [seq fold_left Nat.eqb Nat.add Nat.mul]. rnum. lra.
Qed.
(** The rate written over the quaternion. *)
Theorem C133_over_quaternion_refuted : exists h : mem R,
  rd4 (Qdot_m h 0 0 4) 0 <> qdot (rd4 h 0) (rd3 h 4).
Proof.
  exists (fun x => match x with O => 1 | 4%nat => 2 | _ => 0 end). intro E. apply (f_equal (fun q => q_1 q)) in E. revert E.
  unfold Qdot_m, wr3, scaleV_m, for_, rd4, rd3, qdot, qvec, put, addV, mulMV, skew, scaleV, dot3, half.
  cbn [seq fold_left Nat.eqb Nat.add Nat.mul q_0 q_1 q_2 q_3 v_0 v_1 v_2 m_0 m_1 m_2 m_3 m_4 m_5 m_6 m_7 m_8].
  rnum. unfold Rdec. intro E. cbn in E. lra.
Qed.
Print Assumptions C133_shifted_refuted.
Print Assumptions C133_over_matrix_refuted.
Print Assumptions C133_over_quaternion_refuted.

(** Squaring [[1 2] [3 4]] in place, turning a vector in place, and a rate beside its
    quaternion, in binary64. *)
Definition demo : mem float := fun x => nth x [1; 2; 3; 4; 5; 6]%float 0%float.
Example ex_square : map (mulMM_m demo 0 0 0 2) (seq 0 6) = [7; 10; 15; 22; 5; 6]%float.
Proof. vm_compute. reflexivity. Qed.
Example ex_turn : map (mulMV_m demo 4 0 4 2) (seq 0 6) = [1; 2; 3; 4; 17; 39]%float /\ apart 4 2 0 (2 * 2).
Proof. split; [vm_compute; reflexivity|right; cbn; lia]. Qed.
Example ex_rate : readable 3 3 4 /\ (7 < 0 \/ 0 + 4 <= 7)%nat /\
  rd4 (Qdot_m demo 7 0 3) 7 = qdot (rd4 demo 0) (rd3 demo 3).
Proof. split; [left; lia|]. split; [right; lia|]. vm_compute. reflexivity. Qed.
