(** C183: a boundary source whose fluid has no molecular weight. *)
From Coq Require Import Floats.
From Coq Require Import Reals Lra Lia List Arith Bool ZArith.
From Verif Require Import Num Ord MathUtil Props_Math FluidFlow FluidSorb FluidSources.
Import ListNotations.
Local Open Scope R_scope.

(** It drives no flux, whatever is demanded. *)
Theorem C183_light : forall (b : @bnd R) w, w < Reps -> bnd_flux b w = 0.
Proof.
  intros b w H. unfold bnd_flux. change (w <~ neps) with (Rltb w Reps). rewrite (Rltb_true w Reps H), orb_true_r. reflexivity.
Qed.
Print Assumptions C183_light.
Example C183_light_used : 0 < Reps. Proof. exact Reps_pos. Qed.
