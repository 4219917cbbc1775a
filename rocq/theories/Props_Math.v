(** Properties C36-C38, C61-C65 of MsMath. *)
From Coq Require Import Floats Reals Lra Lia List Arith Bool ZArith QArith Qreals.
From Verif Require Import Num Ord MathUtil.
Import ListNotations.
Close Scope Q_scope.
Open Scope R_scope.

(** ** C36: limitRange, for every ordered number type (reals and binary64) *)
Section C36.
Context {T : Type} {N : Num T} {O : NumOrd T}.

Theorem C36_limit_range_in_range : forall lo x hi : T,
  (lo <=~ hi) = true -> nnan x = false ->
  (lo <=~ limit_range lo x hi) = true /\ (limit_range lo x hi <=~ hi) = true.
Proof. intros. apply clamp_in; auto. Qed.

Theorem C36_limit_range_values : forall lo x hi : T, (lo <=~ hi) = true ->
  ((lo <=~ x) = true -> (x <=~ hi) = true -> limit_range lo x hi = x) /\
  ((x <~ lo) = true -> limit_range lo x hi = lo) /\
  ((hi <~ x) = true -> limit_range lo x hi = hi).
Proof.
  intros lo x hi L. repeat split; intros.
  - apply clamp_id; auto.
  - apply clamp_low; auto.
  - apply clamp_high; auto.
Qed.

Theorem C36_limit_range_monotone : forall lo x y hi : T,
  (lo <=~ hi) = true -> (x <=~ y) = true ->
  (limit_range lo x hi <=~ limit_range lo y hi) = true.
Proof.
  intros lo x y hi L XY. destruct (le_nan _ _ XY) as [Nx Ny], (le_nan _ _ L) as [Nl Nh].
  destruct (C36_limit_range_in_range lo x hi L Nx), (C36_limit_range_in_range lo y hi L Ny).
  destruct (C36_limit_range_values lo x hi L) as (X1 & X2 & X3).
  destruct (C36_limit_range_values lo y hi L) as (Y1 & Y2 & Y3).
  destruct (x <~ lo) eqn:A. { rewrite X2; auto. }
  destruct (hi <~ y) eqn:B. { rewrite Y3; auto. }
  assert (lo <=~ x = true) by (apply nlt_le; auto).
  assert (y <=~ hi = true) by (apply nlt_le; auto).
  rewrite X1, Y1; eauto using ord_le_trans.
Qed.

Theorem C36_limit_range_idempotent : forall lo x hi : T,
  (lo <=~ hi) = true -> limit_range lo (limit_range lo x hi) hi = limit_range lo x hi.
Proof.
  intros lo x hi L. destruct (nnan x) eqn:X.
  - unfold limit_range, nmin, nmax. rewrite (ord_nan_lt hi x) by (rewrite X; apply orb_true_r).
    rewrite (ord_nan_lt x lo) by (rewrite X; auto).
    rewrite (ord_nan_lt hi x) by (rewrite X; apply orb_true_r).
    rewrite (ord_nan_lt x lo) by (rewrite X; auto). auto.
  - destruct (C36_limit_range_in_range lo x hi L X). apply C36_limit_range_values; auto.
Qed.

(** NaN goes through unlimited. *)
Theorem C36_limit_range_nan : forall lo x hi : T,
  nnan x = true -> limit_range lo x hi = x.
Proof.
  intros lo x hi X. unfold limit_range, nmin, nmax.
  rewrite (ord_nan_lt hi x), (ord_nan_lt x lo); rewrite ?X; auto using orb_true_r.
Qed.

(** ** C65: innerLimit never leaves a value strictly inside the band *)
Theorem C65_inner_limit_outside : forall lo x hi : T,
  ((lo <~ inner_limit lo x hi) && (inner_limit lo x hi <~ hi)) = false /\
  ((lo <~ x) && (x <~ hi) = false -> inner_limit lo x hi = x) /\
  ((lo <~ x) && (x <~ hi) = true -> inner_limit lo x hi = lo \/ inner_limit lo x hi = hi).
Proof.
  intros lo x hi. unfold inner_limit. destruct ((lo <~ x) && (x <~ hi)) eqn:E.
  - destruct (x <~ ndec 5 (-1) *~ (hi +~ lo)); rewrite ord_irrefl, ?andb_false_r; repeat split; auto; discriminate.
  - rewrite E. repeat split; auto; discriminate.
Qed.
End C36.

Example C36_float_instance : forall x : float, nnan x = false ->
  (-1 <=? limit_range (-1)%float x 1)%float = true /\
  (limit_range (-1)%float x 1 <=? 1)%float = true.
Proof. intros x H. exact (C36_limit_range_in_range (T := float) (-1)%float x 1%float eq_refl H). Qed.
Example C36_example :
  limit_range (-1)%float infinity 1%float = 1%float /\
  limit_range (-1)%float neg_infinity 1%float = (-1)%float /\
  limit_range 0%float (-0)%float 1%float = (-0)%float.
Proof. repeat split; reflexivity. Qed.
(** Signed zeros: -0 is in [0,1]. *)

Theorem C36_limit_range_int : forall lo x hi : Z, (lo <= hi)%Z ->
  (lo <= limit_range_int lo x hi <= hi)%Z /\
  ((lo <= x <= hi)%Z -> limit_range_int lo x hi = x) /\
  ((x < lo)%Z -> limit_range_int lo x hi = lo) /\ ((hi < x)%Z -> limit_range_int lo x hi = hi).
Proof.
  intros lo x hi H. unfold limit_range_int.
  destruct (Z.ltb_spec hi x); destruct (Z.ltb_spec hi lo); try lia;
    destruct (Z.ltb_spec x lo); repeat split; lia.
Qed.

(** The nearer end is chosen, over exact reals. *)
Theorem C65_inner_limit_nearest : forall lo x hi : R, lo < x < hi ->
  Rabs (inner_limit lo x hi - x) <= Rabs (lo - x) /\
  Rabs (inner_limit lo x hi - x) <= Rabs (hi - x).
Proof.
  intros lo x hi H. unfold inner_limit. rnum. unfold Rdec.
  rewrite (Rltb_true lo x), (Rltb_true x hi) by lra. cbn [andb].
  change (IZR (10 ^ 1)) with 10.
  rcases1; unfold Rabs; repeat destruct Rcase_abs; lra.
Qed.

(** The int overload behaves the same, except that the sum of the two limits may
    overflow: then the C++ is undefined. *)
Theorem C65_inner_limit_int : forall lo x hi r : Z,
  inner_limit_int lo x hi = Some r ->
  ~ (lo < r < hi)%Z /\ (~ (lo < x < hi)%Z -> r = x) /\
  ((lo < x < hi)%Z -> (r = lo \/ r = hi) /\ (Z.abs (r - x) <= Z.abs (lo - x))%Z
                      /\ (Z.abs (r - x) <= Z.abs (hi - x))%Z).
Proof.
  intros lo x hi r. unfold inner_limit_int.
  destruct (Z.ltb_spec lo x), (Z.ltb_spec x hi); cbn [andb]; try (injection 1 as <-; lia).
  destruct (int_ok _); [|discriminate].
  destruct (Z.ltb_spec (2 * x) (hi + lo)); injection 1 as <-; lia.
Qed.
Theorem C65_inner_limit_int_defined_refuted : exists lo x hi : Z,
  int_ok lo = true /\ int_ok x = true /\ int_ok hi = true /\ inner_limit_int lo x hi = None.
Proof. exists 2000000000%Z, 2000000001%Z, 2000000002%Z. repeat split; reflexivity. Qed.
Example C65_int_example : inner_limit_int 0 3 10 = Some 0%Z /\ inner_limit_int 0 5 10 = Some 10%Z.
Proof. split; reflexivity. Qed.

(** ** C37 *)
(** [r] is the angle [a] up to a whole number of turns and lies in [lo, lo + turn). *)
Definition wrapped (turn lo a r : R) : Prop :=
  lo <= r < lo + turn /\ exists k : Z, r = a + IZR k * turn.

Ltac wrapk := match goal with
  | |- exists k : Z, ?a = ?a + _ => exists 0%Z; lra
  | |- exists k : Z, ?a + ?t = ?a + _ => exists 1%Z; lra
  | |- exists k : Z, ?a + ?t + ?t = ?a + _ => exists 2%Z; lra
  | |- exists k : Z, ?a - ?t = ?a + _ => exists (-1)%Z; lra
  | |- exists k : Z, ?a + ?t - ?t = ?a + _ => exists 0%Z; lra
  | |- exists k : Z, ?a + ?t + ?t - ?t = ?a + _ => exists 1%Z; lra
  end.

Theorem C37_angle_pi : forall a, -3 * PI <= a < 3 * PI -> wrapped (2 * PI) (- PI) a (angle_pi PI a).
Proof.
  intros a H. pose proof PI_RGT_0. unfold angle_pi, wrapped. rnum. unfold Rdec.
  rcases; (split; [lra|wrapk]).
Qed.
Theorem C37_angle_2pi : forall a, -4 * PI <= a < 4 * PI -> wrapped (2 * PI) 0 a (angle_2pi PI a).
Proof.
  intros a H. pose proof PI_RGT_0. unfold angle_2pi, wrapped. rnum. unfold Rdec.
  rcases; (split; [lra|wrapk]).
Qed.
Theorem C37_angle_180 : forall a, -540 <= a < 540 -> wrapped 360 (-180) a (angle_180 a).
Proof.
  intros a H. unfold angle_180, wrapped. rnum. unfold Rdec.
  rcases; (split; [lra|wrapk]).
Qed.
Theorem C37_angle_360 : forall a, -720 <= a < 720 -> wrapped 360 0 a (angle_360 a).
Proof.
  intros a H. unfold angle_360, wrapped. rnum. unfold Rdec.
  rcases; (split; [lra|wrapk]).
Qed.
Example C37_example : wrapped 360 0 (-30) 330.
Proof. split; [lra|]. exists 1%Z. lra. Qed.
(** Outside the documented input range the result is out of range. *)
Theorem C37_every_angle_refuted : exists a : R, ~ (0 <= angle_360 a < 360) /\ ~ (-180 <= angle_180 a < 180).
Proof.
  exists 1000. unfold angle_360, angle_180. rnum. unfold Rdec. split; rcases.
Qed.

(** ** C38 *)
Theorem C38_protected_div : forall num den thr ret : R,
  ((den < - thr \/ thr < den) -> protected_div num den thr ret = num / den) /\
  (- thr <= den <= thr -> protected_div num den thr ret = ret) /\
  (0 <= thr -> (den < - thr \/ thr < den) -> den <> 0).
Proof.
  intros. unfold protected_div, is_in_range. rnum. repeat split; intros; rcases; auto; try lra.
  all: cbn; auto; exfalso; lra.
Qed.

(** With a non-negative threshold no division by zero is attempted, in any
    ordered number type. *)
Theorem C38_protected_div_no_zero : forall {T} {N : Num T} {O : NumOrd T} (num den thr ret : T),
  (n0 <=~ thr) = true -> protected_div num den thr ret <> ret -> (den ==~ n0) = false.
Proof.
  intros T N O num den thr ret H0 H. unfold protected_div, is_in_range in H.
  destruct (den ==~ n0) eqn:E; auto. exfalso. rewrite ord_le_antisym in E.
  apply andb_true_iff in E. destruct E as [E1 E2].
  assert (den <=~ thr = true) as A by eauto using ord_le_trans.
  assert (nopp thr <=~ den = true) as B.
  { rewrite <- (ord_opp_opp den), ord_opp_le. eapply ord_le_trans; [|exact H0].
    assert (nopp n0 ==~ (n0 : T) = true) as Z by apply ord_opp_0.
    rewrite ord_le_antisym in Z. apply andb_true_iff in Z. destruct Z as [Z1 Z2].
    eapply ord_le_trans; [|exact Z1]. rewrite ord_opp_le. auto. }
  rewrite A, B in H. cbn in H. congruence.
Qed.

Theorem C38_protected_roots : forall x : R,
  (Reps <= x -> protected_fun sqrt x = sqrt x /\ protected_fun ln x = ln x /\
                protected_fun (fun x => ln x / ln 10) x = ln x / ln 10) /\
  (x < Reps -> protected_fun sqrt x = 0 /\ protected_fun ln x = 0 /\
               protected_fun (fun x => ln x / ln 10) x = 0) /\
  (0 <= x -> Rabs (protected_fun sqrt x - sqrt x) <= / IZR (2 ^ 26)).
Proof.
  intro x. unfold protected_fun. rnum. split; [|split].
  - intro H. rewrite Rltb_false by auto. auto.
  - intro H. rewrite Rltb_true by auto. auto.
  - intro H. destruct (Rltb_spec x Reps).
    + rewrite Rminus_0_l, Rabs_Ropp, Rabs_pos_eq by apply sqrt_pos.
      rewrite <- (sqrt_Rsqr (/ IZR (2 ^ 26))).
      * apply sqrt_le_1_alt. unfold Reps, Rsqr in *. change (2 ^ 52)%Z with (2 ^ 26 * 2 ^ 26)%Z in *.
        rewrite mult_IZR, Rinv_mult in *. lra.
      * left. apply Rinv_0_lt_compat. apply IZR_lt. reflexivity.
    + replace (sqrt x - sqrt x) with 0 by ring. rewrite Rabs_R0. left. apply Rinv_0_lt_compat. apply IZR_lt. reflexivity.
Qed.

Theorem C38_protected_trig : forall x : R,
  (-1 + Reps <= x <= 1 - Reps ->
     protected_asin asin (PI / 2) x = asin x /\ protected_acos acos PI x = acos x) /\
  - (PI / 2) <= protected_asin asin (PI / 2) x <= PI / 2 /\
  0 <= protected_acos acos PI x <= PI /\
  (1 <= x -> protected_asin asin (PI / 2) x = PI / 2 /\ protected_acos acos PI x = 0) /\
  (x <= -1 -> protected_asin asin (PI / 2) x = - (PI / 2) /\ protected_acos acos PI x = PI).
Proof.
  intro x. unfold protected_asin, protected_acos. rnum. pose proof Reps_pos. pose proof Reps_small.
  pose proof PI_RGT_0. pose proof (asin_bound x). pose proof (acos_bound x).
  repeat split; intros; rcases; auto; try lra.
Qed.

(** In binary64 the library functions are parameters: whatever std::sqrt,
    std::log, std::log10 do, they are only called at or above DBL_EPSILON (or
    with NaN). *)
Theorem C38_protected_argument : forall (f g : float -> float) (x : float),
  (forall y, (y <? 0x1p-52)%float = false -> f y = g y) -> protected_fun f x = protected_fun g x.
Proof.
  intros f g x H. unfold protected_fun. cbn [nlt FNum neps]. destruct (x <? 0x1p-52)%float eqn:E; auto.
Qed.
(** Finiteness fails for the protected division: the quotient may overflow. *)
Theorem C38_protected_div_finite_refuted : exists num den : float,
  is_finite num = true /\ is_finite den = true /\
  is_finite (protected_div num den 0x1p-52%float 0%float) = false.
Proof. exists 1e308%float, 1e-10%float. repeat split; vm_compute; reflexivity. Qed.
Example C38_example : protected_div 6%float 2%float 0x1p-52%float 0%float = 3%float /\
  protected_div 6%float 0%float 0x1p-52%float 0%float = 0%float.
Proof. split; vm_compute; reflexivity. Qed.

(** ** C61: round and quantize *)
Lemma floorR_spec x : IZR (floorR x) <= x < IZR (floorR x) + 1.
Proof. unfold floorR. rewrite minus_IZR. destruct (archimed x). lra. Qed.
Lemma floorR_unique x z : IZR z <= x < IZR z + 1 -> floorR x = z.
Proof.
  intro H. pose proof (floorR_spec x) as K.
  assert (floorR x < z + 1)%Z by (apply lt_IZR; rewrite plus_IZR; lra).
  assert (z < floorR x + 1)%Z by (apply lt_IZR; rewrite plus_IZR; lra). lia.
Qed.

(** The nearest integer; ties go up. *)
Theorem C61_round_nearest : forall x z, ms_round x = Some z ->
  - (1 / 2) < x - IZR z + 0 /\ x - IZR z < 1 / 2 \/ x - IZR z = - (1 / 2).
Proof.
  intros x z. unfold ms_round. destruct (int_ok _); [|discriminate]. injection 1 as <-.
  pose proof (floorR_spec (x + 5 / 10)). lra.
Qed.
Theorem C61_round_defined : forall x, - IZR (2 ^ 31) <= x -> x < IZR (2 ^ 31 - 1) -> exists z, ms_round x = Some z.
Proof.
  intros x H1 H2. unfold ms_round. pose proof (floorR_spec (x + 5 / 10)) as K.
  set (z := floorR (x + 5 / 10)) in *. clearbody z. exists z.
  assert (int_ok z = true) as ->; auto. unfold int_ok. rewrite <- opp_IZR in H1.
  assert (- 2 ^ 31 - 1 < z)%Z by (apply lt_IZR; rewrite minus_IZR; lra).
  assert (z < 2 ^ 31 - 1 + 1)%Z by (apply lt_IZR; rewrite plus_IZR; lra).
  apply andb_true_iff. split; apply Z.leb_le; lia.
Qed.
(** A quantized value is a multiple of the resolution within half a resolution. *)
Theorem C61_quantize_nearest : forall x res q, Reps < res -> quantize x res = Some q ->
  (exists z, q = res * IZR z) /\ Rabs (q - x) <= res / 2.
Proof.
  intros x res q H. unfold quantize. rewrite Rltb_true by auto.
  destruct (ms_round (x / res)) as [z|] eqn:E; [|discriminate]. injection 1 as <-.
  split; [eauto|]. apply C61_round_nearest in E. pose proof Reps_pos.
  assert (x = res * (x / res)) as X by (field; lra).
  set (y := x / res) in *. clearbody y. subst x.
  replace (res * IZR z - res * y) with (res * (IZR z - y)) by ring.
  rewrite Rabs_mult, (Rabs_pos_eq res) by lra.
  assert (Rabs (IZR z - y) <= 1 / 2) by (unfold Rabs; destruct Rcase_abs; lra). nra.
Qed.
(** The note says the sign of the resolution does not matter; a negative
    resolution does nothing. *)
Theorem C61_quantize_sign_refuted : exists x res : R, quantize x res <> quantize x (- res).
Proof.
  exists (1 / 4), 1. unfold quantize. pose proof Reps_pos. pose proof Reps_small.
  rewrite Rltb_true by lra. rewrite Rltb_false by lra.
  unfold ms_round. rewrite (floorR_unique _ 0) by (rewrite ?Rdiv_1_r; lra).
  cbn. injection 1. lra.
Qed.
(** Far from zero the conversion to int is undefined, although the quotient of a
    double by a tiny resolution is an ordinary number. *)
Theorem C61_quantize_defined_refuted : exists x res : R, Reps < res /\ quantize x res = None.
Proof.
  exists (3 * 10 ^ 9), 1. pose proof Reps_small. split; [lra|].
  unfold quantize. rewrite Rltb_true by lra. unfold ms_round.
  rewrite (floorR_unique _ 3000000000) by (rewrite ?Rdiv_1_r; lra). reflexivity.
Qed.
Example C61_example : quantize (31 / 10) 1 = Some (1 * 3).
Proof.
  unfold quantize. pose proof Reps_small. rewrite Rltb_true by lra. unfold ms_round.
  rewrite (floorR_unique _ 3) by (rewrite ?Rdiv_1_r; lra). reflexivity.
Qed.

(** ** C62: asinh *)
Theorem C62_asinh_correct : forall v : R, - IZR (2 ^ 50) <= v -> ms_asinh v = arcsinh v.
Proof.
  intros v H. unfold ms_asinh, protected_fun, arcsinh. rnum.
  replace (v ^ 2 + 1) with (v * v + 1) by ring.
  rewrite Rltb_false; auto.
  assert (0 <= v * v + 1) by nra.
  pose proof (sqrt_pos (v * v + 1)) as S0. pose proof (sqrt_sqrt (v * v + 1) ltac:(lra)) as SS.
  set (s := sqrt (v * v + 1)) in *. clearbody s.
  assert (Hs : s <= IZR (2 ^ 50) + 1 \/ 0 <= v).
  { destruct (Rle_dec 0 v); auto. left. assert (0 < IZR (2 ^ 50)) by (apply IZR_lt; reflexivity). nra. }
  unfold Reps. pose proof (IZR_lt 0 (2 ^ 52) eq_refl) as P52.
  destruct (Rle_dec 0 v) as [V|V].
  - assert (1 <= s) by nra. apply Rle_trans with 1; [|lra].
    rewrite <- Rinv_1. apply Rinv_le_contravar; [lra|]. apply IZR_le. discriminate.
  - destruct Hs as [Hs|]; [|lra].
    apply Rmult_le_reg_r with (IZR (2 ^ 52)); [lra|].
    rewrite Rinv_l by lra.
    change (2 ^ 52)%Z with (4 * 2 ^ 50)%Z. change (IZR (2 ^ 50)) with 1125899906842624 in *.
    rewrite mult_IZR. change (IZR (2 ^ 50)) with 1125899906842624.
    assert ((v + s) * (s - v) = 1) by nra.
    assert (0 < s - v) by lra.
    assert (0 < v + s) by nra. nra.
Qed.
(** For large negative arguments the protection returns 0. *)
Theorem C62_asinh_odd_refuted : exists v : R, ms_asinh (- v) <> - ms_asinh v.
Proof.
  exists (IZR (2 ^ 53)). change (IZR (2 ^ 53)) with 9007199254740992.
  assert (P : 0 < ms_asinh 9007199254740992).
  { rewrite C62_asinh_correct.
    - rewrite <- arcsinh_0. apply arcsinh_lt. lra.
    - change (IZR (2 ^ 50)) with 1125899906842624. lra. }
  assert (Z : ms_asinh (- (9007199254740992)) = 0).
  { unfold ms_asinh, protected_fun. rnum. rewrite Rltb_true; auto.
    set (v := 9007199254740992).
    pose proof (sqrt_sqrt (- v * - v + 1) ltac:(unfold v; lra)) as SS.
    pose proof (sqrt_pos (- v * - v + 1)). set (s := sqrt (- v * - v + 1)) in *. clearbody s.
    assert (v <= s) by (unfold v in *; nra).
    unfold Reps. change (IZR (2 ^ 52)) with 4503599627370496.
    assert (0 < v) by (unfold v; lra).
    assert ((s - v) * (s + v) = 1) by nra.
    assert ((s - v) * (2 * v) <= 1) by nra.
    unfold v in *. lra. }
  rewrite Z. lra.
Qed.

(** ** C63: fastPow is exact for integer exponents *)
Lemma mul_n_pow n x acc : mul_n n x acc = acc * x ^ n.
Proof. revert acc. induction n; intro acc; cbn; [|rewrite IHn]; ring. Qed.

Lemma powerRZ_abs_even (x : R) (n : nat) : x < 0 ->
  x ^ n = if Z.eqb (Z.abs (Z.rem (Z.of_nat n) 2)) 1 then - (Rabs x ^ n) else Rabs x ^ n.
Proof.
  intro H. rewrite Rabs_left by auto.
  destruct (Nat.Even_or_Odd n) as [[k ->]|[k ->]].
  - replace (Z.rem (Z.of_nat (2 * k)) 2) with 0%Z
      by (rewrite Nat2Z.inj_mul; symmetry; rewrite Z.mul_comm; apply Z.rem_mul; lia).
    cbn [Z.abs Z.eqb]. rewrite !pow_mult. f_equal. ring.
  - replace (Z.rem (Z.of_nat (2 * k + 1)) 2) with 1%Z
      by (rewrite Z.rem_mod_nonneg by lia; rewrite Nat2Z.inj_add, Nat2Z.inj_mul;
          rewrite Z.add_comm, Z.mul_comm; symmetry; apply Z_mod_plus_full).
    cbn [Z.abs Z.eqb]. change (1 =? 1)%Z with true. cbv iota.
    rewrite !pow_add, !pow_mult, !pow_1. replace ((- x) ^ 2) with (x ^ 2) by ring.
    generalize ((x ^ 2) ^ k). intro. rewrite Pos.eqb_refl. ring.
Qed.

Theorem C63_fast_pow_integer : forall (base : R) (n : Z),
  (Z.abs n < 2 ^ 31)%Z -> base <> 0 \/ (0 <= n)%Z ->
  fast_pow base (IZR n) = Some (powerRZ base n).
Proof.
  intros base n Hn Hb. unfold fast_pow.
  rewrite <- abs_IZR.
  rewrite (floorR_unique (IZR (Z.abs n)) (Z.abs n)) by lra.
  assert (int_ok (Z.abs n) = true) as ->.
  { unfold int_ok. apply andb_true_iff. split; apply Z.leb_le; lia. }
  replace (IZR (Z.abs n) - IZR (Z.abs n)) with 0 by ring.
  assert (Rltb (Rdec 1 (-9)) 0 = false) as Hb0.
  { apply Rltb_false. unfold Rdec. apply Rmult_le_pos; [lra|]. left. apply Rinv_0_lt_compat, IZR_lt. reflexivity. }
  rewrite Hb0. cbv zeta. cbn [orb].
  assert (Reqb base 0 && Rltb (IZR n) 0 = false) as ->.
  { destruct (Reqb_spec base 0); auto. destruct Hb; [contradiction|]. apply Rltb_false. apply IZR_le. auto. }
  rewrite mul_n_pow, Rmult_1_l.
  assert (Hpow : (if Rltb (IZR n) 0 then 1 / Rabs base ^ Z.to_nat (Z.abs n)
                  else Rabs base ^ Z.to_nat (Z.abs n)) = powerRZ (Rabs base) n).
  { destruct n as [|p|p]; cbn [Z.abs Z.to_nat powerRZ].
    - rewrite Rltb_false by lra. reflexivity.
    - rewrite Rltb_false; auto. apply IZR_le. lia.
    - rewrite Rltb_true by (apply IZR_lt; lia). unfold Rdiv. rewrite Rmult_1_l. reflexivity. }
  rewrite Hpow. clear Hpow.
  destruct (Rltb_spec base 0) as [B|B].
  - unfold ms_round. rewrite (floorR_unique _ n) by lra.
    assert (int_ok n = true) as ->.
    { unfold int_ok. apply andb_true_iff. split; apply Z.leb_le; lia. }
    f_equal.
    assert (Rabs base <> 0) by (apply Rabs_no_R0; lra).
    destruct n as [|p|p]; cbn [powerRZ]; auto.
    + rewrite (powerRZ_abs_even base) by auto. rewrite positive_nat_Z. reflexivity.
    + rewrite (powerRZ_abs_even base) by auto. rewrite positive_nat_Z.
      change (Z.neg p) with (- Z.pos p)%Z. rewrite Z.rem_opp_l by lia. rewrite Z.abs_opp.
      destruct (Z.eqb _ _); auto. field. apply pow_nonzero. auto.
  - rewrite Rabs_pos_eq by lra. reflexivity.
Qed.
Example C63_example : fast_pow (-2) (IZR (-3)) = Some (powerRZ (-2) (-3)).
Proof. apply C63_fast_pow_integer; [reflexivity|left; lra]. Qed.

(** The series evaluated on rationals. *)
Definition Qdec (m e : Z) : Q :=
  match e with
  | Z0 => inject_Z m
  | Zpos p => inject_Z (m * 10 ^ Zpos p)
  | Zneg p => (inject_Z m / inject_Z (10 ^ Zpos p))%Q
  end.
Lemma Q2R_inject z : Q2R (inject_Z z) = IZR z.
Proof. unfold Q2R, inject_Z. cbn [Qnum Qden]. change (IZR (Z.pos 1)) with 1. field. Qed.
Lemma Q2R_dec m e : Q2R (Qdec m e) = Rdec m e.
Proof.
  destruct e; cbn [Qdec Rdec].
  - apply Q2R_inject.
  - rewrite Q2R_inject, mult_IZR. reflexivity.
  - rewrite Q2R_div, !Q2R_inject; [reflexivity|].
    intro H. apply Qeq_eqR in H. rewrite Q2R_inject in H. replace (Q2R 0) with 0 in H by (unfold Q2R; cbn; lra).
    apply eq_IZR in H. pose proof (Z.pow_pos_nonneg 10 (Z.pos p)). lia.
Qed.
Definition series_stepQ (b acc : Q) (f : bool * (Z * Z)) : Q :=
  let c := Qdec (fst (snd f)) (snd (snd f)) in
  (1 + (if fst f then b * acc * c else b * acc / c))%Q.
Definition seriesQ (b : Q) : Q :=
  fold_left (series_stepQ b) series_factors (1 + b * Qdec 3333333333333333 (-17))%Q.
Lemma Q2R_1 : Q2R 1 = 1.
Proof. unfold Q2R. cbn. lra. Qed.
Lemma series_fold b l acc :
  (forall f, In f l -> fst f = false -> ~ Qdec (fst (snd f)) (snd (snd f)) == 0)%Q ->
  fold_left (series_step (Q2R b)) l (Q2R acc) = Q2R (fold_left (series_stepQ b) l acc).
Proof.
  revert acc. induction l as [|f l IH]; intros acc H; [reflexivity|]. cbn [fold_left].
  rewrite <- IH by (intros; apply H; cbn; auto). f_equal.
  unfold series_step, series_stepQ. cbv zeta. rewrite <- Q2R_dec.
  destruct (fst f) eqn:E.
  - rewrite Q2R_plus, !Q2R_mult, Q2R_1. reflexivity.
  - rewrite Q2R_plus, Q2R_div, !Q2R_mult, Q2R_1 by (apply H; cbn; auto). reflexivity.
Qed.
Lemma series_Q b : series (Q2R b) = Q2R (seriesQ b).
Proof.
  unfold series, seriesQ. rewrite <- series_fold.
  - rewrite Q2R_plus, Q2R_mult, Q2R_1, Q2R_dec. reflexivity.
  - intros f Hf _. unfold series_factors in Hf. cbn in Hf.
    repeat (destruct Hf as [<-|Hf]; [vm_compute; discriminate|]). destruct Hf.
Qed.

Lemma Q2R_62 : Q2R 62 = 62.
Proof. unfold Q2R. cbn [Qnum Qden]. lra. Qed.
Lemma series_62_pos : 0 < series 62.
Proof.
  rewrite <- Q2R_62, series_Q. apply Rlt_le_trans with (Q2R 1); [rewrite Q2R_1; lra|].
  apply Qle_Rle. vm_compute. discriminate.
Qed.
Lemma series_62_bound : series 62 < 5 * 10 ^ 21.
Proof.
  rewrite <- Q2R_62, series_Q.
  replace (5 * 10 ^ 21) with (Q2R 5000000000000000000000)
    by (unfold Q2R; cbn [Qnum Qden]; lra).
  apply Qlt_Rlt. vm_compute. reflexivity.
Qed.
Lemma fast_pow_witness : fast_pow (exp (-124)) (1 / 2) = Some (1 / series 62).
Proof.
  unfold fast_pow. rewrite (Rabs_pos_eq (1 / 2)) by lra.
  rewrite (floorR_unique (1 / 2) 0) by lra. change (int_ok 0) with true. cbv iota.
  pose proof (exp_pos (-124)) as P. rewrite (Reqb_false (exp (-124)) 0) by lra. cbn [andb].
  cbv zeta. rewrite (Rltb_true (Rdec 1 (-9))) by (unfold Rdec; change (10 ^ 9)%Z with 1000000000%Z; lra).
  rewrite (Rabs_pos_eq (exp (-124))) by lra. rewrite ln_exp.
  rewrite (Rltb_true (-124) 0) by lra. cbn [Z.to_nat mul_n].
  rewrite (Rltb_false (1 / 2) 0) by lra. rewrite (Rltb_false (exp (-124)) 0) by lra.
  replace (Rabs ((1 / 2 - 0) * -124)) with 62 by (unfold Rabs; destruct Rcase_abs; lra).
  reflexivity.
Qed.
Lemma exp_62_bound : 10 ^ 25 < exp 62.
Proof.
  assert (E1 : 1 + 1 / 16 <= exp (1 / 16)) by apply exp_ineq1_le.
  assert (Q : forall x u v y, y = 2 * x -> 0 <= u -> v <= u * u -> u <= exp x -> v <= exp y).
  { intros x u v y -> U V H. replace (2 * x) with (x + x) by ring. rewrite exp_plus.
    apply Rle_trans with (u * u); auto. apply Rmult_le_compat; auto. }
  assert (E2 : 1.128 <= exp (1 / 8)) by (apply (Q (1 / 16) (1 + 1 / 16)); lra).
  assert (E3 : 1.272 <= exp (1 / 4)) by (apply (Q (1 / 8) 1.128); lra).
  assert (E4 : 1.617 <= exp (1 / 2)) by (apply (Q (1 / 4) 1.272); lra).
  assert (E5 : 2.614 <= exp 1) by (apply (Q (1 / 2) 1.617); lra).
  assert (E6 : 6.83 <= exp 2) by (apply (Q 1 2.614); lra).
  assert (P : exp 62 = exp 2 ^ 31).
  { rewrite <- Rpower_pow by apply exp_pos. unfold Rpower. rewrite ln_exp.
    f_equal. rewrite INR_IZR_INZ. change (IZR (Z.of_nat 31)) with 31. lra. }
  rewrite P. apply Rlt_le_trans with (6.83 ^ 31); [lra|].
  apply pow_incr. lra.
Qed.

(** ** C64: "For any base and exponent it gives single precision results" fails:
    the true value is exp(-62), the result is more than a thousand times larger. *)
Theorem C64_fast_pow_single_precision_refuted : exists base e r : R,
  0 < base /\ fast_pow base e = Some r /\ 1000 * Rpower base e < r.
Proof.
  exists (exp (-124)), (1 / 2), (1 / series 62). split; [apply exp_pos|]. split.
  - apply fast_pow_witness.
  - unfold Rpower. rewrite ln_exp. replace (1 / 2 * -124) with (- (62)) by lra.
    rewrite exp_Ropp. pose proof series_62_pos as S1. pose proof series_62_bound as S2.
    pose proof exp_62_bound as E. revert S1 S2 E.
    generalize (series 62) (exp 62). intros S e S1 S2 E.
    apply Rmult_lt_reg_r with (S * e); [nra|].
    replace (1000 * / e * (S * e)) with (1000 * S) by (field; lra).
    replace (1 / S * (S * e)) with e by (field; lra). nra.
Qed.
