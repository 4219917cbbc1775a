(** C229: the weights the mixtures of a shadow are converted by. *)
From Coq Require Import Floats.
From Coq Require Import Reals Lra Lia List Arith Bool ZArith.
From Verif Require Import Num Ord MathUtil Props_Math Props_Thermal FluidFlow Props_FluidFlow Props_FluidMix Shadow.
Import ListNotations.
Local Open Scope R_scope.

(** Mole fractions come in by the weights of the other network's types, and go out by those of this
    network's; partial pressures go out as mole fractions of the potential. *)
Theorem C229_weights : forall (c : shc R) p n x i, 
  (h_in c = MoleFrac -> length (h_we c) = length x -> (i < length x)%nat -> Reps <= total (products x (h_we c)) ->
     nth i (sh_convert c x) 0 * total (products x (h_we c)) = nth i x 0 * nth i (h_we c) 0) /\
  (length (h_wi c) = length (v_x n) -> (i < length (v_x n))%nat -> Reps <= total (quotients (v_x n) (h_wi c)) ->
     (h_out c = MoleFrac -> nth i (snd (sh_outputs c p n)) 0 * total (quotients (v_x n) (h_wi c)) = nth i (v_x n) 0 / nth i (h_wi c) 0) /\
     (h_out c = PartPress -> nth i (snd (sh_outputs c p n)) 0 * total (quotients (v_x n) (h_wi c)) = p * (nth i (v_x n) 0 / nth i (h_wi c) 0))).
Proof.
  intros c p n x i. split.
  - intros E L I Q. unfold sh_convert. rewrite E. destruct (C158_fractions x x (h_we c)) as (F & _). now apply F.
  - intros L I Q. destruct (C158_fractions (v_x n) (v_x n) (h_wi c)) as (_ & F & _). destruct (F Q) as [_ F2]. specialize (F2 i I L). split; intro E; unfold sh_outputs; rewrite E; cbn [snd].
    + exact F2.
    + unfold mole_to_press. rewrite (nth_indep _ 0 (0 *~ p)) by (rewrite map_length, m2nR; destruct (Rle_dec _ _); [rewrite map_length; unfold quotients; rewrite map_length, combine_length; lia|exact I]).
      rewrite (map_nth (fun y => y *~ p) _ 0 i). cbn [nmul RNum]. rewrite <- F2. ring.
Qed.
Print Assumptions C229_weights.
(** The pressure that goes out is the node's potential, found by the network, and the temperature that of
    its contents. *)
Theorem C229_potential : forall (c : shc R) p n, fst (sh_outputs c p n) = (p, v_t n) /\ (h_out c = MassFrac -> snd (sh_outputs c p n) = v_x n).
Proof. intros c p n. unfold sh_outputs. split; [reflexivity|]. intros ->. reflexivity. Qed.
Print Assumptions C229_potential.
