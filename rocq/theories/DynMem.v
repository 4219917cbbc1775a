(** The vector and matrix functions of the dynamics on memory, where arrays may overlap.
    Source: /repo/aspects/dynamics/GunnsDynUtils.cpp.

    Memory is a function from addresses to values, a pointer to an array its first address.
    The arrays that a function makes for itself overlap nothing.  Sizes are small enough for
    unsigned int. *)
From Coq Require Import List Arith Bool ZArith.
From Verif Require Import Num MathUtil Dyn.
Import ListNotations.

Section MEM.
Context {T : Type} {N : Num T}.
Definition mem := nat -> T.
Definition put (h : mem) (a : nat) (v : T) : mem := fun x => if Nat.eqb x a then v else h x.
Definition for_ {S} (n : nat) (body : nat -> S -> S) (s : S) : S :=
  fold_left (fun s i => body i s) (seq 0 n) s.

(** GunnsDynUtils.cpp:45-63. *)
Definition setV (h : mem) (A B n : nat) : mem := for_ n (fun i h => put h (A + i) (h (B + i))) h.
Definition zeroV_m (h : mem) (A n : nat) : mem := for_ n (fun i h => put h (A + i) n0) h.
(** GunnsDynUtils.cpp:73-110. *)
Definition addV_m (h : mem) (A B C n : nat) : mem :=
  for_ n (fun i h => put h (A + i) (h (B + i) +~ h (C + i))) h.
Definition subV_m (h : mem) (A B C n : nat) : mem :=
  for_ n (fun i h => put h (A + i) (h (B + i) -~ h (C + i))) h.
Definition scaleV_m (h : mem) (A B : nat) (s : T) (n : nat) : mem :=
  for_ n (fun i h => put h (A + i) (h (B + i) *~ s)) h.
Definition rd3 (h : mem) (a : nat) : v3 T := V3 (h a) (h (a + 1)) (h (a + 2)).
Definition rd4 (h : mem) (a : nat) : q4 T := Q4 (h a) (h (a + 1)) (h (a + 2)) (h (a + 3)).
Definition wr3 (h : mem) (a : nat) (v : v3 T) : mem :=
  put (put (put h a (v_0 v)) (a + 1) (v_1 v)) (a + 2) (v_2 v).
(** GunnsDynUtils.cpp:120-129. *)
Definition crossV3_m (h : mem) (A B C : nat) : mem :=
  let b := rd3 h B in let c := rd3 h C in
  let h := put h A (v_1 b *~ v_2 c -~ v_2 b *~ v_1 c) in
  let h := put h (A + 1) (v_2 b *~ v_0 c -~ v_0 b *~ v_2 c) in
  put h (A + 2) (v_0 b *~ v_1 c -~ v_1 b *~ v_0 c).
(** GunnsDynUtils.cpp:140-175. *)
Definition mulMV_m (h : mem) (A B C n : nat) : mem :=
  let c := fun i => h (C + i) in
  for_ n (fun row h =>
    for_ n (fun col h => put h (A + row) (h (A + row) +~ h (B + (row * n + col)) *~ c col)) h)
    (zeroV_m h A n).
Definition mulMtV_m (h : mem) (A B C n : nat) : mem :=
  let c := fun i => h (C + i) in
  for_ n (fun row h =>
    for_ n (fun col h => put h (A + row) (h (A + row) +~ h (B + (col * n + row)) *~ c col)) h)
    (zeroV_m h A n).
(** GunnsDynUtils.cpp:222-233; [skew] and multiplyMV work on arrays of the function's own. *)
Definition Qdot_m (h : mem) (D Q W : nat) : mem :=
  let h := put h D (dot3 (rd3 h (Q + 1)) (rd3 h W)) in
  let q0w := scaleV (rd3 h W) (nopp (h Q)) in
  let qsw := mulMV (skew (rd3 h (Q + 1))) (rd3 h W) in
  let h := wr3 h (D + 1) (addV qsw q0w) in
  scaleV_m h D D half 4.
(** GunnsDynUtils.cpp:474-509. *)
Definition setM (h : mem) (A B n : nat) : mem := setV h A B (n * n).
Definition mulMM_m (h : mem) (A B C n : nat) : mem :=
  let b := fun i => h (B + i) in let c := fun i => h (C + i) in
  for_ n (fun row h => for_ n (fun col h => for_ n (fun i h =>
    put h (A + (row * n + col)) (h (A + (row * n + col)) +~ b (row * n + i) *~ c (i * n + col))) h) h)
    (zeroV_m h A (n * n)).
(** GunnsDynUtils.cpp:205-212. *)
Definition dotV_m (h : mem) (A B n : nat) : T := for_ n (fun i r => r +~ h (A + i) *~ h (B + i)) n0.
End MEM.
Arguments mem : clear implicits.
