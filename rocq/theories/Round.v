(** * Rounding in binary64

    The four operations of binary64 round the exact result: this file states that
    with one function [rnd] from the reals to the reals and derives that the
    operations are monotone.  The facts about IEEE arithmetic come from Flocq, which
    proves them from the standard library's float axioms. *)
From Coq Require Import Floats.
From Coq Require Import Reals Lra Lia Bool ZArith.
From Flocq Require Import Core.Core Plus_error IEEE754.BinarySingleNaN IEEE754.PrimFloat.
From Verif Require Import Num Ord.
Local Open Scope R_scope.

Local Notation float := Coq.Floats.PrimFloat.float.
Local Notation BF := (binary_float prec emax).
Local Notation rexp := (SpecFloat.fexp prec emax).
Definition bmax : R := bpow radix2 emax.

Definition bfin (x : BF) : bool := BinarySingleNaN.is_finite x.
Definition bnan (x : BF) : bool := BinarySingleNaN.is_nan x.

(** The value of a binary64 number, with 2^1024 in the place of infinity. *)
Definition bval (x : BF) : R :=
  match x with
  | B754_infinity s => if s then - bmax else bmax
  | _ => B2R x
  end.

(** The rounded value of a real, clipped at plus and minus 2^1024. *)
Definition rne (r : R) : R := round radix2 rexp ZnearestE r.
Definition rnd (r : R) : R := Rmax (Rmin (rne r) bmax) (- bmax).

Definition ffin (x : float) : bool := bfin (Prim2B x).
Definition FR (x : float) : R := bval (Prim2B x).

Lemma bmax_pos : 0 < bmax.
Proof. apply bpow_gt_0. Qed.

Local Existing Instance Hprec.
Local Existing Instance Hmax.
Local Instance vexp : Valid_exp rexp.
Proof. apply (fexp_correct prec emax Hprec). Qed.

Lemma rne_mono a b : a <= b -> rne a <= rne b.
Proof. intro H. apply round_le; [exact vexp | apply valid_rnd_N | exact H]. Qed.

Lemma rne_0 : rne 0 = 0.
Proof. apply round_0. apply valid_rnd_N. Qed.

Lemma rne_opp r : rne (- r) = - rne r.
Proof.
  unfold rne. rewrite round_NE_opp. reflexivity.
Qed.

Lemma rnd_mono a b : a <= b -> rnd a <= rnd b.
Proof.
  intro H. apply rne_mono in H. unfold rnd.
  apply Rle_max_compat_r. apply Rle_min_compat_r. exact H.
Qed.

Lemma rnd_0 : rnd 0 = 0.
Proof.
  unfold rnd. rewrite rne_0. pose proof bmax_pos. rewrite Rmin_left, Rmax_left; lra.
Qed.

Lemma rnd_opp r : rnd (- r) = - rnd r.
Proof.
  unfold rnd. rewrite rne_opp. pose proof bmax_pos. unfold Rmax, Rmin.
  repeat destruct Rle_dec; lra.
Qed.

Lemma rnd_bound r : - bmax <= rnd r <= bmax.
Proof. unfold rnd. pose proof bmax_pos. unfold Rmax, Rmin. repeat destruct Rle_dec; lra. Qed.

Lemma bval_B2R x : bfin x = true -> bval x = B2R x.
Proof. destruct x; try discriminate; reflexivity. Qed.

Lemma bfin_range x : bfin x = true -> - bmax < bval x < bmax.
Proof.
  intro H. rewrite (bval_B2R x H). pose proof (abs_B2R_lt_emax prec emax x) as A.
  apply Rabs_def2 in A. unfold bmax. lra.
Qed.

Lemma rnd_bval x : bfin x = true -> rnd (bval x) = bval x.
Proof.
  intro H. pose proof (bfin_range x H). rewrite bval_B2R in * by exact H.
  unfold rnd, rne. rewrite round_generic.
  - rewrite Rmin_left, Rmax_left; lra.
  - apply valid_rnd_N.
  - apply generic_format_B2R.
Qed.

Lemma bsign_true x : bfin x = true -> Bsign x = true -> B2R x <= 0.
Proof.
  destruct x as [s|s| |s m e b]; intros H S; try discriminate; cbn [B2R Bsign] in *; subst; try lra.
  apply F2R_le_0. cbn. lia.
Qed.
Lemma bsign_false x : bfin x = true -> Bsign x = false -> 0 <= B2R x.
Proof.
  destruct x as [s|s| |s m e b]; intros H S; try discriminate; cbn [B2R Bsign] in *; subst; try lra.
  apply F2R_ge_0. cbn. lia.
Qed.

(** ** Comparison *)

Lemma bleb_val x y : bnan x = false -> bnan y = false -> Bleb x y = Rleb (bval x) (bval y).
Proof.
  intros Nx Ny. pose proof bmax_pos as P.
  destruct (bfin x) eqn:Fx; destruct (bfin y) eqn:Fy.
  - rewrite Bleb_correct by assumption. rewrite !bval_B2R by assumption.
    destruct (Rle_bool_spec (B2R x) (B2R y)); symmetry; [apply Rleb_true | apply Rleb_false]; lra.
  - pose proof (bfin_range x Fx). destruct y as [s|s| |s m e b]; try discriminate.
    cbn [bval]. destruct x as [s'|s'| |s' m' e' b'], s; try discriminate Fx; try (destruct s'); symmetry;
      (apply Rleb_true; lra) || (apply Rleb_false; lra).
  - pose proof (bfin_range y Fy). destruct x as [s|s| |s m e b]; try discriminate.
    cbn [bval]. destruct y as [s'|s'| |s' m' e' b'], s; try discriminate Fy; try (destruct s'); symmetry;
      (apply Rleb_true; lra) || (apply Rleb_false; lra).
  - destruct x as [s|s| |s m e b]; try discriminate. destruct y as [s'|s'| |s' m' e' b']; try discriminate.
    destruct s, s'; cbn [bval]; symmetry; (apply Rleb_true; lra) || (apply Rleb_false; lra).
Qed.

Lemma fnan_bnan x : fnan x = bnan (Prim2B x).
Proof. unfold fnan. rewrite <- B2SF_Prim2B. destruct (Prim2B x); reflexivity. Qed.

Lemma nnan_bnan (x : float) : nnan x = bnan (Prim2B x).
Proof. rewrite fnnan. apply fnan_bnan. Qed.

Lemma ffin_nan (x : float) : ffin x = true -> nnan x = false.
Proof. rewrite nnan_bnan. unfold ffin. destruct (Prim2B x); auto. Qed.

Lemma FR_le (x y : float) : nnan x = false -> nnan y = false -> (x <=~ y) = Rleb (FR x) (FR y).
Proof.
  rewrite !nnan_bnan. intros. unfold FR. rewrite <- bleb_val by assumption. apply leb_equiv.
Qed.

Lemma FR_lt (x y : float) : nnan x = false -> nnan y = false -> (x <~ y) = Rltb (FR x) (FR y).
Proof.
  intros. pose proof (ord_total y x H0 H) as E. rewrite FR_le in E by assumption.
  destruct (x <~ y), (Rleb_spec (FR y) (FR x)); try discriminate; symmetry;
    [apply Rltb_true | apply Rltb_false]; lra.
Qed.

Lemma FR_eq (x y : float) : nnan x = false -> nnan y = false -> (x ==~ y) = Reqb (FR x) (FR y).
Proof.
  intros. rewrite ord_le_antisym, !FR_le by assumption.
  destruct (Rleb_spec (FR x) (FR y)), (Rleb_spec (FR y) (FR x)); symmetry;
    (apply Reqb_true; lra) || (apply Reqb_false; lra).
Qed.

Lemma FR_bound x : nnan x = false -> - bmax <= FR x <= bmax.
Proof.
  rewrite nnan_bnan. unfold FR. pose proof bmax_pos. destruct (bfin (Prim2B x)) eqn:F; intro.
  - pose proof (bfin_range _ F). lra.
  - destruct (Prim2B x) as [s|s| |s m e b]; try discriminate. destruct s; cbn [bval]; lra.
Qed.

Lemma FR_fin x : nnan x = false -> (ffin x = true <-> - bmax < FR x < bmax).
Proof.
  rewrite nnan_bnan. unfold ffin, FR. pose proof bmax_pos. intro N. split; intro F.
  - exact (bfin_range _ F).
  - destruct (Prim2B x) as [s|s| |s m e b]; try discriminate N; try reflexivity.
    destruct s; cbn [bval] in F; lra.
Qed.

Lemma rnd_FR x : ffin x = true -> rnd (FR x) = FR x.
Proof. apply rnd_bval. Qed.

(** ** The operations *)

Lemma over_val (z : BF) s r : B2SF z = binary_overflow prec emax mode_NE s ->
  (s = true -> r <= 0) -> (s = false -> 0 <= r) -> ~ Rabs (rne r) < bmax ->
  bnan z = false /\ bval z = rnd r.
Proof.
  intros E Ht Hf B. unfold binary_overflow in E. cbn [overflow_to_inf] in E.
  destruct z as [s'|s'| |s' m e b]; try discriminate E. injection E as ->.
  split; [reflexivity|]. cbn [bval]. pose proof bmax_pos. unfold rnd.
  destruct s.
  - specialize (Ht eq_refl). apply rne_mono in Ht. rewrite rne_0 in Ht.
    rewrite Rabs_left1 in B by lra. rewrite Rmin_left, Rmax_right; lra.
  - specialize (Hf eq_refl). apply rne_mono in Hf. rewrite rne_0 in Hf.
    rewrite Rabs_pos_eq in B by lra. rewrite Rmin_right, Rmax_left; lra.
Qed.

Lemma rnd_small r : Rabs (rne r) < bmax -> rnd r = rne r.
Proof. intro H. apply Rabs_def2 in H. unfold rnd. rewrite Rmin_left, Rmax_left; lra. Qed.

Lemma bfin_nan z : bfin z = true -> bnan z = false.
Proof. destruct z; auto. Qed.

Lemma bplus_val x y : bfin x = true -> bfin y = true ->
  let z := Bplus mode_NE x y in bnan z = false /\ bval z = rnd (bval x + bval y).
Proof.
  intros Fx Fy z. pose proof (Bplus_correct prec emax _ _ mode_NE x y Fx Fy) as C. fold z in C.
  rewrite (bval_B2R x Fx), (bval_B2R y Fy). cbn [round_mode] in C.
  fold (rne (B2R x + B2R y)) in C. fold bmax in C.
  destruct (Rlt_bool_spec (Rabs (rne (B2R x + B2R y))) bmax) as [L|L].
  - destruct C as (V & F & _). split; [now apply bfin_nan|].
    rewrite (bval_B2R z F), V. symmetry. now apply rnd_small.
  - destruct C as (V & S). eapply over_val; [exact V | | | lra].
    + intro Sx. rewrite Sx in S. pose proof (bsign_true x Fx Sx). pose proof (bsign_true y Fy (eq_sym S)). lra.
    + intro Sx. rewrite Sx in S. pose proof (bsign_false x Fx Sx). pose proof (bsign_false y Fy (eq_sym S)). lra.
Qed.

Lemma bminus_val x y : bfin x = true -> bfin y = true ->
  let z := Bminus mode_NE x y in bnan z = false /\ bval z = rnd (bval x - bval y).
Proof.
  intros Fx Fy z. pose proof (Bminus_correct prec emax _ _ mode_NE x y Fx Fy) as C. fold z in C.
  rewrite (bval_B2R x Fx), (bval_B2R y Fy). cbn [round_mode] in C.
  fold (rne (B2R x - B2R y)) in C. fold bmax in C.
  destruct (Rlt_bool_spec (Rabs (rne (B2R x - B2R y))) bmax) as [L|L].
  - destruct C as (V & F & _). split; [now apply bfin_nan|].
    rewrite (bval_B2R z F), V. symmetry. now apply rnd_small.
  - destruct C as (V & S). eapply over_val; [exact V | | | lra].
    + intro Sx. rewrite Sx in S. symmetry in S. apply negb_true_iff in S.
      pose proof (bsign_true x Fx Sx). pose proof (bsign_false y Fy S). lra.
    + intro Sx. rewrite Sx in S. symmetry in S. apply negb_false_iff in S.
      pose proof (bsign_false x Fx Sx). pose proof (bsign_true y Fy S). lra.
Qed.

Lemma bmult_val x y : bfin x = true -> bfin y = true ->
  let z := Bmult mode_NE x y in bnan z = false /\ bval z = rnd (bval x * bval y).
Proof.
  intros Fx Fy z. pose proof (Bmult_correct prec emax _ _ mode_NE x y) as C. fold z in C.
  rewrite (bval_B2R x Fx), (bval_B2R y Fy). cbn [round_mode] in C.
  fold (rne (B2R x * B2R y)) in C. fold bmax in C.
  destruct (Rlt_bool_spec (Rabs (rne (B2R x * B2R y))) bmax) as [L|L].
  - destruct C as (V & F & _). change (BinarySingleNaN.is_finite x) with (bfin x) in F.
    change (BinarySingleNaN.is_finite y) with (bfin y) in F. rewrite Fx, Fy in F.
    split; [now apply bfin_nan|]. rewrite (bval_B2R z F), V. symmetry. now apply rnd_small.
  - eapply over_val; [exact C | | | lra]; intro S.
    + destruct (Bsign x) eqn:Sx, (Bsign y) eqn:Sy; try discriminate S.
      * pose proof (bsign_true x Fx Sx). pose proof (bsign_false y Fy Sy). nra.
      * pose proof (bsign_false x Fx Sx). pose proof (bsign_true y Fy Sy). nra.
    + destruct (Bsign x) eqn:Sx, (Bsign y) eqn:Sy; try discriminate S.
      * pose proof (bsign_true x Fx Sx). pose proof (bsign_true y Fy Sy). nra.
      * pose proof (bsign_false x Fx Sx). pose proof (bsign_false y Fy Sy). nra.
Qed.

Lemma bdiv_val x y : bfin x = true -> bfin y = true -> bval y <> 0 ->
  let z := Bdiv mode_NE x y in bnan z = false /\ bval z = rnd (bval x / bval y).
Proof.
  intros Fx Fy. rewrite (bval_B2R x Fx), (bval_B2R y Fy). intros Y z.
  pose proof (Bdiv_correct prec emax _ _ mode_NE x y Y) as C. fold z in C.
  cbn [round_mode] in C. fold (rne (B2R x / B2R y)) in C. fold bmax in C.
  destruct (Rlt_bool_spec (Rabs (rne (B2R x / B2R y))) bmax) as [L|L].
  - destruct C as (V & F & _). change (BinarySingleNaN.is_finite x) with (bfin x) in F. rewrite Fx in F.
    split; [now apply bfin_nan|]. rewrite (bval_B2R z F), V. symmetry. now apply rnd_small.
  - assert (D : B2R x / B2R y = B2R x * (B2R y * / (B2R y * B2R y))) by (field; lra).
    assert (Q : 0 < / (B2R y * B2R y)) by (apply Rinv_0_lt_compat; nra).
    eapply over_val; [exact C | | | lra]; rewrite D; set (q := / (B2R y * B2R y)) in *; intro S;
      destruct (Bsign x) eqn:Sx, (Bsign y) eqn:Sy; try discriminate S.
    all: try pose proof (bsign_true x Fx Sx); try pose proof (bsign_false x Fx Sx);
         try pose proof (bsign_true y Fy Sy); try pose proof (bsign_false y Fy Sy).
    + assert (0 <= B2R y * q) by nra. nra.
    + assert (B2R y * q <= 0) by nra. nra.
    + assert (B2R y * q <= 0) by nra. nra.
    + assert (0 <= B2R y * q) by nra. nra.
Qed.

Lemma FR_add (x y : float) : ffin x = true -> ffin y = true ->
  nnan (x +~ y) = false /\ FR (x +~ y) = rnd (FR x + FR y).
Proof.
  intros Fx Fy. rewrite nnan_bnan. unfold FR. change (x +~ y) with (Coq.Floats.PrimFloat.add x y).
  rewrite add_equiv. now apply bplus_val.
Qed.

Lemma FR_sub (x y : float) : ffin x = true -> ffin y = true ->
  nnan (x -~ y) = false /\ FR (x -~ y) = rnd (FR x - FR y).
Proof.
  intros Fx Fy. rewrite nnan_bnan. unfold FR. change (x -~ y) with (Coq.Floats.PrimFloat.sub x y).
  rewrite sub_equiv. now apply bminus_val.
Qed.

Lemma FR_mul (x y : float) : ffin x = true -> ffin y = true ->
  nnan (x *~ y) = false /\ FR (x *~ y) = rnd (FR x * FR y).
Proof.
  intros Fx Fy. rewrite nnan_bnan. unfold FR. change (x *~ y) with (Coq.Floats.PrimFloat.mul x y).
  rewrite mul_equiv. now apply bmult_val.
Qed.

Lemma FR_div (x y : float) : ffin x = true -> ffin y = true -> FR y <> 0 ->
  nnan (x /~ y) = false /\ FR (x /~ y) = rnd (FR x / FR y).
Proof.
  intros Fx Fy. rewrite nnan_bnan. unfold FR. change (x /~ y) with (Coq.Floats.PrimFloat.div x y).
  rewrite div_equiv. now apply bdiv_val.
Qed.

Lemma FR_opp (x : float) : nnan x = false -> FR (nopp x) = - FR x.
Proof.
  rewrite nnan_bnan. unfold FR. change (nopp x) with (Coq.Floats.PrimFloat.opp x). rewrite opp_equiv.
  destruct (Prim2B x) as [s|s| |s m e b]; try discriminate; intros _; cbn [Bopp bval B2R].
  - lra.
  - destruct s; cbn [negb]; lra.
  - rewrite <- F2R_Zopp. now destruct s.
Qed.

Lemma ffin_opp (x : float) : ffin (nopp x) = ffin x.
Proof.
  unfold ffin. change (nopp x) with (Coq.Floats.PrimFloat.opp x). rewrite opp_equiv. now destruct (Prim2B x).
Qed.

Lemma FR_0 : FR (n0 : float) = 0.
Proof. unfold FR. change (n0 : float) with Coq.Floats.PrimFloat.zero. rewrite zero_equiv, Prim2B_B2Prim. reflexivity. Qed.
Lemma ffin_0 : ffin (n0 : float) = true.
Proof. unfold ffin. change (n0 : float) with Coq.Floats.PrimFloat.zero. rewrite zero_equiv, Prim2B_B2Prim. reflexivity. Qed.
Lemma FR_1 : FR (n1 : float) = 1.
Proof.
  unfold FR. change (n1 : float) with Coq.Floats.PrimFloat.one. rewrite one_equiv, Prim2B_B2Prim.
  rewrite bval_B2R by apply is_finite_Bone. apply Bone_correct.
Qed.
Lemma ffin_1 : ffin (n1 : float) = true.
Proof. unfold ffin. change (n1 : float) with Coq.Floats.PrimFloat.one. rewrite one_equiv, Prim2B_B2Prim. apply is_finite_Bone. Qed.

Lemma FR_abs (x : float) : nnan x = false -> FR (nabs x) = Rabs (FR x).
Proof.
  rewrite nnan_bnan. unfold FR. change (nabs x) with (Coq.Floats.PrimFloat.abs x). rewrite abs_equiv.
  pose proof bmax_pos.
  destruct (Prim2B x) as [s|s| |s m e b]; try discriminate; intros _; cbn [Babs bval B2R].
  - now rewrite Rabs_R0.
  - destruct s; [rewrite Rabs_left | rewrite Rabs_right]; lra.
  - rewrite <- F2R_Zabs. now destruct s.
Qed.

Lemma ffin_abs (x : float) : ffin (nabs x) = ffin x.
Proof.
  unfold ffin. change (nabs x) with (Coq.Floats.PrimFloat.abs x). rewrite abs_equiv. now destruct (Prim2B x).
Qed.

(** ** Integers *)

Lemma norm_val m s : let x := BinarySingleNaN.binary_normalize prec emax Hprec Hmax mode_NE m 0 s in
  bnan x = false /\ bval x = rnd (IZR m).
Proof.
  intro x. pose proof (binary_normalize_correct prec emax Hprec Hmax mode_NE m 0 s) as C. cbv zeta in C.
  fold x in C.
  assert (V : F2R (Float radix2 m 0) = IZR m) by (unfold F2R; cbn [Fnum Fexp bpow]; lra).
  rewrite V in C. cbn [round_mode] in C. fold (rne (IZR m)) in C. fold bmax in C.
  destruct (Rlt_bool_spec (Rabs (rne (IZR m))) bmax) as [L|L].
  - destruct C as (W & F & _). split; [now apply bfin_nan|].
    rewrite (bval_B2R x F), W. symmetry. now apply rnd_small.
  - eapply over_val; [exact C | | | lra]; destruct (Rlt_bool_spec (IZR m) 0); intro; try discriminate; lra.
Qed.

Lemma FR_int (z : Z) : nnan (ndec (T := float) z 0) = false /\ FR (ndec z 0) = rnd (IZR z).
Proof.
  change (ndec z 0) with (Fdec z 0). destruct (Z.eq_dec z 0) as [->|D].
  - split; [reflexivity|]. change (Fdec 0 0) with (n0 : float). now rewrite FR_0, rnd_0.
  - assert (E : exists s, Prim2B (Fdec z 0) =
       BinarySingleNaN.binary_normalize prec emax Hprec Hmax mode_NE z 0 s).
    { destruct z as [|p|p]; [contradiction | exists false | exists true].
      all: rewrite <- (Prim2B_B2Prim (BinarySingleNaN.binary_normalize _ _ _ _ _ _ _ _));
           apply (f_equal Prim2B); unfold B2Prim; cbn [Fdec]; apply (f_equal SF2Prim), binary_normalize_equiv. }
    destruct E as (s & E). rewrite nnan_bnan. unfold FR. rewrite E. apply norm_val.
Qed.

Lemma rnd_int z : (Z.abs z <= 2 ^ 53)%Z -> rnd (IZR z) = IZR z.
Proof.
  intro H. assert (G : generic_format radix2 rexp (IZR z)).
  { apply generic_format_FLT. destruct (Z.eq_dec (Z.abs z) (2 ^ 53)) as [E|D].
    - exists (Float radix2 (z / 2) 1); cbn [Fnum Fexp].
      + assert (z = 2 * (z / 2))%Z by (destruct (Z.abs_eq_cases z (2 ^ 53)) as [-> | ->]; [lia | reflexivity | reflexivity]).
        unfold F2R. cbn [Fnum Fexp]. rewrite H0 at 1. rewrite mult_IZR. cbn [bpow]. change (IZR (Z.pow_pos radix2 1)) with 2. lra.
      + assert (Z.abs (z / 2) <= 2 ^ 52)%Z by (destruct (Z.abs_eq_cases z (2 ^ 53)) as [-> | ->]; [lia | |]; vm_compute; discriminate).
        change (radix2 ^ prec)%Z with (2 * 2 ^ 52)%Z. lia.
      + vm_compute. discriminate.
    - exists (Float radix2 z 0); cbn [Fnum Fexp].
      + unfold F2R. cbn [Fnum Fexp bpow]. lra.
      + change (radix2 ^ prec)%Z with (2 ^ 53)%Z. lia.
      + vm_compute. discriminate. }
  unfold rnd, rne. rewrite round_generic; [|apply valid_rnd_N | exact G].
  assert (B : IZR (2 ^ 53) < bmax) by (unfold bmax; rewrite <- (IZR_Zpower radix2) by (vm_compute; discriminate);
    apply IZR_lt; vm_compute; reflexivity).
  assert (- IZR (2 ^ 53) <= IZR z <= IZR (2 ^ 53)) by (rewrite <- opp_IZR; split; apply IZR_le; lia).
  rewrite Rmin_left, Rmax_left; lra.
Qed.

Lemma FR_int_exact z : (Z.abs z <= 2 ^ 53)%Z -> ffin (ndec z 0) = true /\ FR (ndec z 0) = IZR z.
Proof.
  intro H. destruct (FR_int z) as (A & B). rewrite rnd_int in B by exact H. split; [|exact B].
  apply FR_fin; [exact A|]. rewrite B.
  assert (C : IZR (2 ^ 53) < bmax) by (unfold bmax; rewrite <- (IZR_Zpower radix2) by (vm_compute; discriminate);
    apply IZR_lt; vm_compute; reflexivity).
  assert (- IZR (2 ^ 53) <= IZR z <= IZR (2 ^ 53)) by (rewrite <- opp_IZR; split; apply IZR_le; lia).
  lra.
Qed.

(** The difference of different numbers is not rounded to zero. *)
Lemma rnd_sub_0 x y : ffin x = true -> ffin y = true -> rnd (FR x - FR y) = 0 -> FR x = FR y.
Proof.
  unfold ffin, FR. intros Fx Fy E. rewrite !bval_B2R in * by assumption.
  destruct (Req_dec (B2R (Prim2B x)) (B2R (Prim2B y))) as [H|H]; [exact H|]. exfalso.
  pose proof bmax_pos as P.
  assert (R0 : rne (B2R (Prim2B x) - B2R (Prim2B y)) = 0).
  { unfold rnd in E. revert E. unfold Rmax, Rmin. repeat destruct Rle_dec; intro E; lra. }
  revert R0. unfold rne, Rminus.
  apply (round_plus_neq_0 radix2 rexp); try typeclasses eauto.
  - apply generic_format_B2R.
  - apply generic_format_opp, generic_format_B2R.
  - lra.
Qed.

(** ** Reals and binary64 alike *)

(** A number type whose operations are the exact ones on real values, followed by
    a monotone rounding. *)
Class NumVal (T : Type) {N : Num T} := {
  nfin : T -> bool;
  val : T -> R;
  rd : R -> R;
  rd_mono : forall a b, a <= b -> rd a <= rd b;
  rd_0 : rd 0 = 0;
  rd_opp : forall r, rd (- r) = - rd r;
  rd_val : forall x, nfin x = true -> rd (val x) = val x;
  rd_sub_0 : forall x y, nfin x = true -> nfin y = true -> rd (val x - val y) = 0 -> val x = val y;
  rd_int : forall z, (Z.abs z <= 2 ^ 53)%Z -> rd (IZR z) = IZR z;
  fin_nan : forall x : T, nfin x = true -> nnan x = false;
  fin_between : forall a x b : T, nfin a = true -> nfin b = true -> nnan x = false ->
    val a <= val x <= val b -> nfin x = true;
  val_le : forall x y : T, nnan x = false -> nnan y = false -> (x <=~ y) = Rleb (val x) (val y);
  val_lt : forall x y : T, nnan x = false -> nnan y = false -> (x <~ y) = Rltb (val x) (val y);
  val_eq : forall x y : T, nnan x = false -> nnan y = false -> (x ==~ y) = Reqb (val x) (val y);
  val_add : forall x y : T, nfin x = true -> nfin y = true ->
    nnan (x +~ y) = false /\ val (x +~ y) = rd (val x + val y);
  val_sub : forall x y : T, nfin x = true -> nfin y = true ->
    nnan (x -~ y) = false /\ val (x -~ y) = rd (val x - val y);
  val_mul : forall x y : T, nfin x = true -> nfin y = true ->
    nnan (x *~ y) = false /\ val (x *~ y) = rd (val x * val y);
  val_div : forall x y : T, nfin x = true -> nfin y = true -> val y <> 0 ->
    nnan (x /~ y) = false /\ val (x /~ y) = rd (val x / val y);
  val_opp : forall x : T, nnan x = false -> val (nopp x) = - val x;
  val_abs : forall x : T, nnan x = false -> val (nabs x) = Rabs (val x);
  fin_opp : forall x : T, nfin (nopp x) = nfin x;
  fin_abs : forall x : T, nfin (nabs x) = nfin x;
  opp_nan : forall x : T, nnan (nopp x) = nnan x;
  abs_nan : forall x : T, nnan (nabs x) = nnan x;
  fin_0 : nfin n0 = true;
  fin_1 : nfin n1 = true;
  val_0 : val n0 = 0;
  val_1 : val n1 = 1;
  val_int : forall z, (Z.abs z <= 2 ^ 53)%Z -> nfin (ndec z 0) = true /\ val (ndec z 0) = IZR z
}.

Lemma ffin_between (a x b : float) : ffin a = true -> ffin b = true -> nnan x = false ->
  FR a <= FR x <= FR b -> ffin x = true.
Proof.
  intros Fa Fb Nx B. apply FR_fin; [exact Nx|].
  apply FR_fin in Fa; [|now apply ffin_nan]. apply FR_fin in Fb; [|now apply ffin_nan]. lra.
Qed.

Global Instance FVal : NumVal float := {
  nfin := ffin; val := FR; rd := rnd;
  rd_mono := rnd_mono; rd_0 := rnd_0; rd_opp := rnd_opp; rd_val := rnd_FR; rd_sub_0 := rnd_sub_0; rd_int := rnd_int;
  fin_nan := ffin_nan; fin_between := ffin_between; val_le := FR_le; val_lt := FR_lt; val_eq := FR_eq;
  val_add := FR_add; val_sub := FR_sub; val_mul := FR_mul; val_div := FR_div;
  val_opp := FR_opp; val_abs := FR_abs; fin_opp := ffin_opp; fin_abs := ffin_abs;
  opp_nan := ord_opp_nan; abs_nan := ord_abs_nan;
  fin_0 := ffin_0; fin_1 := ffin_1; val_0 := FR_0; val_1 := FR_1; val_int := FR_int_exact }.

Lemma RdecZ z : (ndec z 0 : R) = IZR z.
Proof. reflexivity. Qed.

Global Instance RVal : NumVal R.
Proof.
  refine (Build_NumVal R _ (fun _ => true) (fun x => x) (fun x => x) _ _ _ _ _ _ _ _ _ _ _ _ _ _ _ _ _ _ _ _ _ _ _ _ _ _);
  intros; try (unfold nnan; rnum; rewrite Reqb_true by reflexivity; try split; reflexivity); auto.
  all: try lra.
  all: try (split; [unfold nnan; rnum; now rewrite Reqb_true | rnum; reflexivity]).
  all: try (first [apply ord_opp_nan | apply ord_abs_nan]).
Defined.
