(** The solve only reads the leading n x n block. *)
From Coq Require Import Lia List Arith Bool.
From Verif Require Import Num Loops Ldu.

Lemma solve_ext {T} `{Num T} n (M M' : mat T) B x :
  1 <= n ->
  (forall i j, i < n -> j < n -> M i j = M' i j) -> solve M B x n = solve M' B x n.
Proof.
  intros Hn E. unfold solve.
  assert (E1 : solve_lower M B x n = solve_lower M' B x n).
  { unfold solve_lower. apply loop_ext. intros k s Hk. unfold lower_k. apply loop_ext.
    intros i s' Hi. rewrite E by lia. reflexivity. }
  rewrite E1. clear E1.
  rewrite (loopE_ext (diag_k M) (diag_k M') n 0).
  2: { intros k s Hk. unfold diag_k. rewrite E by lia. reflexivity. }
  destruct (loopE (diag_k M') 0 n (solve_lower M' B x n)) as [y|e]; [|reflexivity].
  f_equal. unfold solve_upper. apply loop_ext. intros m s Hm. cbv zeta. unfold upper_k.
  apply loop_ext. intros i s' Hi. rewrite E by lia. reflexivity.
Qed.
