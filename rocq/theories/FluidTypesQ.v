(** Rational evaluation of the constants of the defined fluids and the checks made on
    it.  Nothing here is part of the model: the checks are proved sound below and used
    by Props_FluidTypes.v. *)
From Coq Require Import Floats.
From Coq Require Import Reals Bool ZArith QArith Qreals Lra Lia List Psatz.
From Verif Require Import Num MathUtil Fluid Fits Spec_Fits FluidTypes Props_Fits Props_FitInverse.
Import ListNotations.
Open Scope R_scope.

Definition Qdec (m e : Z) : Q :=
  match e with
  | Z0 => inject_Z m
  | Zpos p => Qred (inject_Z (m * 10 ^ Zpos p))
  | Zneg p => Qred (m # (10 ^ p)%positive)
  end.
Fixpoint evq (l : lit) : Q :=
  match l with D m e => Qdec m e | LMul a b => Qred (evq a * evq b) | LDiv a b => Qred (evq a / evq b) end.
Fixpoint wfl (l : lit) : bool :=
  match l with
  | D _ _ => true | LMul a b => wfl a && wfl b
  | LDiv a b => wfl a && wfl b && negb (Qeq_bool (evq b) 0)
  end.
Lemma Q2R_red q : Q2R (Qred q) = Q2R q.
Proof. apply Qeq_eqR, Qred_correct. Qed.
Lemma Q2R_dec m e : Q2R (Qdec m e) = Rdec m e.
Proof.
  destruct e as [|p|p]; unfold Qdec, Rdec; rewrite ?Q2R_red; unfold Q2R, inject_Z; cbn [Qnum Qden].
  - field.
  - rewrite mult_IZR. field.
  - rewrite Pos2Z.inj_pow. reflexivity.
Qed.
Lemma evq_ev l : wfl l = true -> Q2R (evq l) = (ev l : R).
Proof.
  induction l as [m e | a IHa b IHb | a IHa b IHb]; cbn [wfl evq ev]; intro W.
  - apply Q2R_dec.
  - apply andb_prop in W as [W1 W2]. rewrite Q2R_red, Q2R_mult, IHa, IHb by auto. reflexivity.
  - apply andb_prop in W as [W W3]. apply andb_prop in W as [W1 W2].
    rewrite Q2R_red, Q2R_div, IHa, IHb; auto.
    intro Z. apply Qeq_bool_iff in Z. rewrite Z in W3. discriminate.
Qed.

(** Comparisons. *)
Definition qle (a b : Q) : bool := Qle_bool a b.
Definition qlt (a b : Q) : bool := negb (Qle_bool b a).
Definition qeq (a b : Q) : bool := Qeq_bool a b.
Lemma qle_R a b : qle a b = true -> Q2R a <= Q2R b.
Proof. intro H. apply Qle_Rle. now apply Qle_bool_iff. Qed.
Lemma qlt_R a b : qlt a b = true -> Q2R a < Q2R b.
Proof.
  unfold qlt. intro H. apply Qlt_Rlt. destruct (Qlt_le_dec a b) as [L | L]; auto.
  apply Qle_bool_iff in L. rewrite L in H. discriminate.
Qed.
Lemma qeq_R a b : qeq a b = true -> Q2R a = Q2R b.
Proof. intro H. apply Qeq_eqR. now apply Qeq_bool_iff. Qed.
Definition qeps : Q := 1 # 4503599627370496.
Lemma qeps_R : Q2R qeps = Reps.
Proof. unfold Q2R, qeps, Reps. cbn [Qnum Qden]. change (2 ^ 52)%Z with 4503599627370496%Z. lra. Qed.
Definition qflt : Q := 1 # 8388608.
Lemma qflt_R : Q2R qflt = / IZR (2 ^ 23).
Proof. unfold Q2R, qflt. cbn [Qnum Qden]. change (2 ^ 23)%Z with 8388608%Z. lra. Qed.
Lemma Q2R_Z z : Q2R (z # 1) = IZR z.
Proof. unfold Q2R. cbn [Qnum Qden]. field. Qed.
Ltac qr := rewrite ?Q2R_plus, ?Q2R_minus, ?Q2R_mult, ?Q2R_opp, ?qeps_R, ?qflt_R, ?Q2R_Z in *.

(** The arguments of a fit as rationals and as reals. *)
Definition toR (g : args Q) : args R := amap Q2R g.
Definition wfa (g : args lit) : bool :=
  wfl (g_minx g) && wfl (g_maxx g) && wfl (g_miny g) && wfl (g_maxy g) && wfl (g_a g) && wfl (g_b g)
  && wfl (g_c g) && wfl (g_d g) && wfl (g_e g) && wfl (g_f g).
Lemma toR_ev g : wfa g = true -> toR (amap evq g) = amap ev g.
Proof.
  unfold wfa. intro W. repeat (apply andb_prop in W as [W ?]).
  unfold toR, amap. cbn. rewrite !evq_ev by assumption. reflexivity.
Qed.

(** ** The constructor returns *)
Definition q_proper (k : kind) (g : args Q) : bool :=
  g_named g && qlt (g_minx g) (g_maxx g) && (negb (two_vars k) || qlt (g_miny g) (g_maxy g)).
Definition qabs (a : Q) : Q := if qle 0 a then a else Qopp a.
Lemma qabs_R a : Q2R (qabs a) = Rabs (Q2R a).
Proof.
  unfold qabs. destruct (qle 0 a) eqn:E.
  - apply qle_R in E. change (Q2R 0) with (Q2R (0 # 1)) in E. rewrite Q2R_Z in E.
    now rewrite Rabs_pos_eq.
  - assert (L : qlt a 0 = true) by (unfold qlt; unfold qle in E; now rewrite E).
    apply qlt_R in L. change (Q2R 0) with (Q2R (0 # 1)) in L. rewrite Q2R_Z in L.
    rewrite Q2R_opp, Rabs_left; auto.
Qed.
Definition exps : list Z := map (fun n => (Z.of_nat n - 30)%Z) (seq 0 41).
Definition low10 (q : Q) : option Z := find (fun n => qle (Qdec 1 n) q) (rev exps).
Definition high10 (q : Q) : option Z := find (fun n => qle (q * q) (Qdec 1 n)) exps.
Definition q_tsat (g : args Q) : bool :=
  qlt 0 (g_minx g) && qle qeps (qabs (g_c g)) &&
  match low10 (g_minx g), high10 (g_maxx g) with
  | Some n, Some m =>
      qle ((qabs (g_b g) + qabs (g_c g)) * qeps) (g_a g - (m # 2)) &&
      (if qle 0 (g_c g) then
         qle (2 * g_c g * qeps) (- g_b g)
         && qle 0 (g_b g * g_b g - 4 * g_c g * (g_a g - (n # 1)))
       else true)
  | _, _ => false
  end.
Definition q_ctor (k : kind) (g : args Q) : bool :=
  q_proper k g &&
  match k with
  | Quotient => qle qflt (g_minx g)
  | Exponential | InvLinear | InvQuadratic | Showmate => qle qeps (g_minx g)
  | Hvap => qle (qabs (g_b g)) (50 # 1) && qle (qabs (g_c g)) (50 # 1)
  | QuadLinInv =>
      qle (g_d g * g_d g - 4 * g_f g) 1 && qle (qabs (g_d g) + 1) (g_minx g)
  | QuadraticRoot =>
      let q := Qdiv (- (g_a g * g_a g)) (4 * g_b g) in
      qle qeps (qabs (g_b g)) && (qle q (g_minx g + qflt) || qle (g_maxx g - qflt) q)
  | Tsat => q_tsat g
  | Rational | Sutherland => false
  | _ => true
  end.
Lemma q_proper_R k g : q_proper k g = true -> proper k (toR g).
Proof.
  unfold q_proper. intro H. apply andb_prop in H as [H H3]. apply andb_prop in H as [H1 H2].
  split; [exact H1|]. split; [now apply qlt_R in H2|]. intro W. rewrite W in H3.
  now apply qlt_R in H3.
Qed.
Lemma log10_dec n : log10 (Rdec 1 n) = IZR n.
Proof.
  assert (L0 : 0 < ln 10) by (rewrite <- ln_1; apply ln_increasing; lra).
  assert (P : forall p, ln (IZR (10 ^ Zpos p)) = IZR (Zpos p) * ln 10).
  { intro p. rewrite <- Pos2Z.inj_pow_pos || idtac.
    rewrite <- (positive_nat_Z p), <- pow_IZR, <- INR_IZR_INZ.
    generalize (Pos.to_nat p). intro k. induction k as [|k IH].
    - rewrite pow_O, ln_1. cbn [INR]. ring.
    - change (10 ^ S k) with (10 * 10 ^ k). rewrite ln_mult, IH; [rewrite S_INR; ring|lra|].
      apply pow_lt; lra. }
  assert (PP : forall p, 0 < IZR (10 ^ Zpos p)).
  { intro p. apply (IZR_lt 0). apply Z.pow_pos_nonneg; lia. }
  unfold log10. destruct n as [|p|p]; unfold Rdec.
  - rewrite ln_1. field. lra.
  - rewrite Rmult_1_l, P. field. lra.
  - unfold Rdiv at 2. rewrite Rmult_1_l, ln_Rinv by apply PP. rewrite P.
    change (Zneg p) with (- Zpos p)%Z. rewrite opp_IZR. field. lra.
Qed.
Lemma log10_mono a b : 0 < a -> a <= b -> log10 a <= log10 b.
Proof.
  assert (0 < ln 10) by (rewrite <- ln_1; apply ln_increasing; lra).
  intros a0 [ab | ->]; [|lra]. unfold log10. apply Rmult_le_compat_r.
  - now apply Rlt_le, Rinv_0_lt_compat.
  - left. now apply ln_increasing.
Qed.
Lemma Rdec1_pos n : 0 < Rdec 1 n.
Proof.
  destruct n as [|p|p]; unfold Rdec; [lra| |];
    assert (0 < IZR (10 ^ Zpos p)) by (apply (IZR_lt 0), Z.pow_pos_nonneg; lia); [lra|].
  unfold Rdiv. rewrite Rmult_1_l. now apply Rinv_0_lt_compat.
Qed.
Lemma Q2R_0 : Q2R 0 = 0. Proof. change (Q2R 0) with (Q2R (0 # 1)). apply Q2R_Z. Qed.
Lemma Q2R_1 : Q2R 1 = 1. Proof. change (Q2R 1) with (Q2R (1 # 1)). apply Q2R_Z. Qed.

Lemma tsat_value (a b c l : R) : c <> 0 -> 
  (Rabs b + Rabs c) * Reps <= a - l ->
  0 <= b ^ 2 - 4 * c * (a - l) ->
  (0 < c -> 2 * c * Reps <= - b) ->
  Reps <= (- b - sqrt (b ^ 2 - 4 * c * (a - l))) / (2 * c).
Proof.
  intros C0 M R P. pose proof Reps_pos as E0. pose proof Reps_small as E1.
  set (s := sqrt _). assert (S0 : 0 <= s) by apply sqrt_pos.
  assert (SS : s * s = b ^ 2 - 4 * c * (a - l)) by (apply sqrt_sqrt; exact R). clearbody s.
  pose proof (Rabs_pos b) as B0. pose proof (Rabs_pos c) as C1.
  destruct (Rtotal_order c 0) as [CN | [CZ | CP]]; [|lra|].
  - rewrite (Rabs_left c) in M by exact CN.
    assert (BB : Rabs b * Rabs b = b ^ 2) by (rewrite <- Rabs_mult, Rabs_pos_eq; nra).
    assert (K : Rabs b + 2 * - c * Reps <= s).
    { apply Rsqr_incr_0_var; [|exact S0]. unfold Rsqr. rewrite SS.
      assert ((Rabs b + - c) * Reps * (4 * - c) <= (a - l) * (4 * - c)) by (apply Rmult_le_compat_r; lra).
      assert (c * c * Reps * Reps <= c * c * Reps).
      { rewrite <- (Rmult_1_r (c * c * Reps)) at 2. apply Rmult_le_compat_l; nra. }
      nra. }
    pose proof (Rle_abs (- b)) as AB. rewrite Rabs_Ropp in AB.
    apply (Rmult_le_reg_r (2 * - c)); [lra|].
    replace ((- b - s) / (2 * c) * (2 * - c)) with (b + s) by (field; lra). lra.
  - rewrite (Rabs_pos_eq c) in M by lra. specialize (P CP).
    rewrite (Rabs_left1 b) in M by nra.
    assert (K : s <= - b - 2 * c * Reps).
    { apply Rsqr_incr_0_var; [|lra]. unfold Rsqr. rewrite SS.
      assert ((- b + c) * Reps * (4 * c) <= (a - l) * (4 * c)) by (apply Rmult_le_compat_r; lra).
      assert (0 <= c * c * Reps) by nra. assert (0 <= c * c * Reps * Reps) by nra. nra. }
    apply (Rmult_le_reg_r (2 * c)); [lra|].
    replace ((- b - s) / (2 * c) * (2 * c)) with (- b - s) by (field; lra). lra.
Qed.

Definition ctorR (k : kind) (g : args R) : option (fit R) := ctor sqrt exp log10 Rpower k g.
Lemma tsat_accept o g : q_ctor Tsat g = true -> snd (initR Rpower Tsat o (toR g)) = false.
Proof.
  unfold q_ctor. intro H. apply andb_prop in H as [HP H]. apply q_proper_R in HP.
  destruct HP as (NM & L & _). unfold q_tsat in H.
  apply andb_prop in H as [H H3]. apply andb_prop in H as [H1 H2].
  destruct (low10 (g_minx g)) as [n|] eqn:LO; [|discriminate].
  destruct (high10 (g_maxx g)) as [m|] eqn:HI; [|discriminate].
  apply andb_prop in H3 as [H3 H4].
  apply find_some in LO as [_ LO]. apply find_some in HI as [_ HI].
  apply qle_R in LO, HI, H2, H3. apply qlt_R in H1. rewrite Q2R_dec in LO, HI. rewrite Q2R_0 in H1.
  rewrite qabs_R in H2. rewrite Q2R_mult, Q2R_plus, Q2R_minus, !qabs_R in H3. rewrite qeps_R in H2, H3.
  change (g_minx (toR g)) with (Q2R (g_minx g)) in *. change (g_maxx (toR g)) with (Q2R (g_maxx g)) in *.
  assert (LN : IZR n <= log10 (Q2R (g_minx g))).
  { rewrite <- log10_dec. apply log10_mono; auto using Rdec1_pos. }
  assert (LM : log10 (Q2R (g_maxx g)) <= Q2R (m # 2)).
  { rewrite Q2R_mult in HI. assert (S : log10 (Q2R (g_maxx g) * Q2R (g_maxx g)) <= IZR m).
    { rewrite <- log10_dec. apply log10_mono; [apply Rmult_lt_0_compat; lra|exact HI]. }
    unfold log10 in S. rewrite ln_mult in S by lra. unfold log10.
    replace (Q2R (m # 2)) with (IZR m / 2) by reflexivity. unfold Rdiv in *.
    set (v := / ln 10) in *. set (w := ln _) in *. clearbody v w. lra. }
  assert (LL : log10 (Q2R (g_minx g)) <= log10 (Q2R (g_maxx g))) by (apply log10_mono; lra).
  assert (C0 : Q2R (g_c g) <> 0) by (now apply nz_abs).
  assert (POS : 0 < Q2R (g_c g) -> 2 * Q2R (g_c g) * Reps <= - Q2R (g_b g) /\
                 0 <= Q2R (g_b g) ^ 2 - 4 * Q2R (g_c g) * (Q2R (g_a g) - IZR n)).
  { intro CP. assert (E : qle 0 (g_c g) = true).
    { unfold qle. apply Qle_bool_iff. apply Rle_Qle. rewrite Q2R_0. lra. }
    rewrite E in H4. apply andb_prop in H4 as [H4 H5]. apply qle_R in H4, H5.
    rewrite Q2R_0 in H5. rewrite !Q2R_minus, !Q2R_mult, !Q2R_minus in H5.
    rewrite !Q2R_mult, Q2R_opp, qeps_R in H4. change (Q2R 2) with (Q2R (2 # 1)) in H4.
    change (Q2R 4) with (Q2R (4 # 1)) in H5. rewrite !Q2R_Z in *. split; [lra|]. simpl; lra. }
  pose proof Reps_pos as E0.
  assert (AM : 0 <= Q2R (g_a g) - Q2R (m # 2)).
  { eapply Rle_trans; [|exact H3]. pose proof (Rabs_pos (Q2R (g_b g))). pose proof (Rabs_pos (Q2R (g_c g))). nra. }
  assert (RAD : forall l, IZR n <= l -> l <= Q2R (m # 2) ->
            0 <= Q2R (g_b g) ^ 2 - 4 * Q2R (g_c g) * (Q2R (g_a g) - l)).
  { intros l l1 l2. destruct (Rtotal_order (Q2R (g_c g)) 0) as [CN | [CZ | CP]]; [|lra|].
    - assert (0 <= Q2R (g_b g) ^ 2) by apply pow2_ge_0. nra.
    - destruct (POS CP) as [_ Q]. nra. }
  assert (VAL : forall l, IZR n <= l -> l <= Q2R (m # 2) ->
    Reps <= (- Q2R (g_b g) - sqrt (Q2R (g_b g) ^ 2 - 4 * Q2R (g_c g) * (Q2R (g_a g) - l))) / (2 * Q2R (g_c g))).
  { intros l l1 l2. apply tsat_value; auto; [lra|]. intro CP. now apply POS. }
  unfold initR, init, base_init. cbn [yrange]. rewrite NM. cbn [negb].
  change (g_minx (toR g)) with (Q2R (g_minx g)) in *. change (g_maxx (toR g)) with (Q2R (g_maxx g)) in *.
  change (g_a (toR g)) with (Q2R (g_a g)) in *. change (g_b (toR g)) with (Q2R (g_b g)) in *.
  change (g_c (toR g)) with (Q2R (g_c g)) in *.
  unfold evaluate. cbn [set_coefs f_a f_b f_c f_d f_e f_f].
  cbn [nle nlt nabs nopp neps nsub nmul ndiv n0 ndec RNum]. 
  rewrite Rleb_false by exact L. rewrite Rleb_false by lra. rewrite Rltb_false by exact H2.
  change (Rdec 4 0) with 4. change (Rdec 5 (-1)) with (5 / 10).
  assert (X : forall l, IZR n <= l -> l <= Q2R (m # 2) ->
     (Rltb (Q2R (g_b g) * Q2R (g_b g) - 4 * Q2R (g_c g) * (Q2R (g_a g) - l)) 0 = false) /\
     Rltb ((- Q2R (g_b g) - sqrt (Q2R (g_b g) * Q2R (g_b g) - 4 * Q2R (g_c g) * (Q2R (g_a g) - l)))
           * (5 / 10 / Q2R (g_c g))) Reps = false).
  { intros l l1 l2. specialize (RAD l l1 l2). specialize (VAL l l1 l2).
    replace (Q2R (g_b g) * Q2R (g_b g)) with (Q2R (g_b g) ^ 2) by ring.
    split; apply Rltb_false; [exact RAD|].
    replace ((- Q2R (g_b g) - sqrt (Q2R (g_b g) ^ 2 - 4 * Q2R (g_c g) * (Q2R (g_a g) - l))) * (5 / 10 / Q2R (g_c g)))
      with ((- Q2R (g_b g) - sqrt (Q2R (g_b g) ^ 2 - 4 * Q2R (g_c g) * (Q2R (g_a g) - l))) / (2 * Q2R (g_c g)))
      by (field; exact C0).
    exact VAL. }
  destruct (X (log10 (Q2R (g_minx g)))) as [X1 X2]; [lra|lra|].
  destruct (X (log10 (Q2R (g_maxx g)))) as [X3 X4]; [lra|lra|].
  rewrite X1, X2, X3, X4. reflexivity.
Qed.

(** The constructor's start: only the roots' fit reads it. *)
Lemma q_ctor_R k g : q_ctor k g = true -> exists o, ctorR k (toR g) = Some o /\ accepted Rpower k (toR g) o.
Proof.
  intro H. unfold ctorR, ctor.
  set (z := fresh).
  set (s := match k with QuadraticRoot => _ | Tsat => _ | _ => _ end).
  assert (S : snd (initR Rpower k s (toR g)) = false).
  { pose proof H as HP. unfold q_ctor in HP. apply andb_prop in HP as [HP HC].
    apply q_proper_R in HP. pose proof Reps_pos as E0. pose proof p23_pos as E1.
    destruct (C121_accepts Rpower k s (toR g)) as (A1 & A2 & A3).
    destruct k; cbv beta iota in HC;
      try (apply A2; [reflexivity|discriminate|exact HP]); try discriminate HC.
    - apply A3; [reflexivity|]. apply andb_prop in HC as [H1 H2]. apply qle_R in H1, H2.
      rewrite qabs_R, Q2R_Z in H1, H2. auto.
    - apply qle_R in HC. rewrite qflt_R in HC. apply (A1 _ eq_refl). auto.
    - apply qle_R in HC. rewrite qeps_R in HC. apply (A1 _ eq_refl). auto.
    - apply qle_R in HC. rewrite qeps_R in HC. apply (A1 _ eq_refl). auto.
    - apply qle_R in HC. rewrite qeps_R in HC. apply (A1 _ eq_refl). auto.
    - apply qle_R in HC. rewrite qeps_R in HC. apply (A1 _ eq_refl). auto.
    - (* QuadLinInv *)
      apply andb_prop in HC as [H1 H2]. apply qle_R in H1, H2.
      rewrite Q2R_minus, !Q2R_mult in H1. rewrite Q2R_plus, qabs_R, Q2R_1 in H2.
      change (Q2R 4) with (Q2R (4 # 1)) in H1. rewrite Q2R_Z, Q2R_1 in H1.
      destruct HP as (NM & L & L2). specialize (L2 eq_refl).
      unfold initR, init, base_init. cbn [yrange]. rewrite NM. cbn [negb nle RNum].
      rewrite Rleb_false by exact L. rewrite Rleb_false by exact L2. cbv beta iota zeta.
      unfold roots_check. rewrite flt23.
      change (g_d (toR g)) with (Q2R (g_d g)). change (g_f (toR g)) with (Q2R (g_f g)).
      change (g_minx (toR g)) with (Q2R (g_minx g)). change (g_maxx (toR g)) with (Q2R (g_maxx g)).
      cbn [nlt nle nopp nsub nadd nmul ndec RNum].
      change (Rdec 4 0) with 4. change (Rdec 5 (-1)) with (5 / 10). change (Rdec (-5) (-1)) with (-5 / 10).
      assert (FS : / IZR (2 ^ 23) < / 10) by (change (2 ^ 23)%Z with 8388608%Z; lra).
      pose proof (Rle_abs (- Q2R (g_d g))) as DA. rewrite Rabs_Ropp in DA.
      pose proof (Rabs_pos (Q2R (g_d g))) as DP.
      set (disc := Q2R (g_d g) * Q2R (g_d g) - 4 * Q2R (g_f g)) in *.
      assert (SQ : sqrt disc <= 1) by (rewrite <- sqrt_1; now apply sqrt_le_1_alt).
      pose proof (sqrt_pos disc) as SP.
      destruct (Rltb _ disc).
      + rewrite (Rleb_false (Q2R (g_minx g)) (- Q2R (g_d g) + _ + _)) by lra.
        rewrite (Rleb_false (Q2R (g_minx g)) (- Q2R (g_d g) - _ + _)) by lra. reflexivity.
      + destruct (Rltb _ disc); [|reflexivity].
        rewrite (Rleb_false (Q2R (g_minx g))) by lra. reflexivity.
    - (* QuadraticRoot *)
      apply andb_prop in HC as [H1 H2]. apply qle_R in H1. rewrite qabs_R, qeps_R in H1.
      destruct HP as (NM & L & _).
      unfold initR, init, base_init. cbn [yrange]. rewrite NM, flt23. cbn [negb nle RNum nopp].
      rewrite Rleb_false by exact L. rewrite Rleb_false by lra. cbv beta iota zeta.
      unfold s. cbn [set_coefs set_flag f_a f_b f_c f_d f_e f_f z fresh].
      change (g_b (toR g)) with (Q2R (g_b g)). change (g_a (toR g)) with (Q2R (g_a g)).
      change (g_minx (toR g)) with (Q2R (g_minx g)). change (g_maxx (toR g)) with (Q2R (g_maxx g)).
      cbn [nlt nabs neps nopp ndiv nmul nadd nsub ndec RNum]. change (Rdec 4 0) with 4.
      rewrite (Rltb_false (Rabs (Q2R (g_b g)))) by exact H1. cbn [orb].
      assert (B0 : Q2R (g_b g) <> 0) by (now apply nz_abs).
      assert (QE : Q2R (Qdiv (- (g_a g * g_a g)) (4 * g_b g))
                   = - (Q2R (g_a g) * Q2R (g_a g)) / (4 * Q2R (g_b g))).
      { rewrite Q2R_div.
        - rewrite Q2R_opp, !Q2R_mult. change (Q2R 4) with (Q2R (4 # 1)). now rewrite Q2R_Z.
        - intro Z. apply Qeq_eqR in Z. rewrite Q2R_mult, Q2R_0 in Z.
          change (Q2R 4) with (Q2R (4 # 1)) in Z. rewrite Q2R_Z in Z. lra. }
      apply orb_prop in H2 as [H2 | H2]; apply qle_R in H2; rewrite QE in H2;
        rewrite ?Q2R_plus, ?Q2R_minus, qflt_R in H2.
      + rewrite (Rltb_false (Q2R (g_minx g) + _)) by exact H2. reflexivity.
      + rewrite (Rltb_false _ (Q2R (g_maxx g) - _)) by exact H2. rewrite andb_false_r. reflexivity.
    - now apply tsat_accept. }
  destruct (initR Rpower k s (toR g)) as [o e] eqn:I. cbn [snd] in S. subst e. unfold initR in I.
  rewrite I. exists o. split; [reflexivity|]. exists s. exact I.
Qed.

(** ** Positive polynomials *)
Fixpoint peval (cs : list R) (x : R) : R :=
  match cs with [] => 0 | c :: cs => c + x * peval cs x end.
(** A lower bound of the values on [0, w]. *)
Fixpoint plow (cs : list Q) (w : Q) : Q :=
  match cs with
  | [] => 0
  | c :: cs => let u := plow cs w in if qle 0 u then c else Qred (c + u * w)
  end.
Lemma plow_R cs w x : 0 <= x <= Q2R w -> Q2R (plow cs w) <= peval (map Q2R cs) x.
Proof.
  intro I. induction cs as [|c cs IH]; cbn [plow peval map]; [rewrite Q2R_0; lra|].
  set (v := peval (map Q2R cs) x) in *. clearbody v.
  destruct (qle 0 (plow cs w)) eqn:E.
  - apply qle_R in E. rewrite Q2R_0 in E. nra.
  - assert (L : qlt (plow cs w) 0 = true) by (unfold qlt; unfold qle in E; now rewrite E).
    apply qlt_R in L. rewrite Q2R_0 in L. rewrite Q2R_red, Q2R_plus, Q2R_mult. nra.
Qed.
Fixpoint padd (p q : list Q) : list Q :=
  match p, q with
  | a :: p, b :: q => Qred (a + b) :: padd p q
  | [], q => q
  | p, [] => p
  end.
Lemma padd_R p : forall q x,
  peval (map Q2R (padd p q)) x = peval (map Q2R p) x + peval (map Q2R q) x.
Proof.
  induction p as [|a p IH]; intros [|b q] x; cbn [padd map peval]; try lra.
  rewrite IH, Q2R_red, Q2R_plus. lra.
Qed.
(** The polynomial of [x] at [x + a]. *)
Fixpoint pshift (cs : list Q) (a : Q) : list Q :=
  match cs with
  | [] => []
  | c :: cs => let q := pshift cs a in padd (c :: q) (map (fun v => Qred (a * v)) q)
  end.
Lemma pscale_R a cs x : peval (map Q2R (map (fun v => Qred (a * v)) cs)) x = Q2R a * peval (map Q2R cs) x.
Proof. induction cs as [|c cs IH]; cbn [map peval]; [lra|]. rewrite IH, Q2R_red, Q2R_mult. lra. Qed.
Lemma pshift_R cs a x : peval (map Q2R (pshift cs a)) x = peval (map Q2R cs) (x + Q2R a).
Proof.
  induction cs as [|c cs IH]; [reflexivity|]. cbn [pshift]. rewrite padd_R, pscale_R.
  cbn [map peval]. rewrite IH. lra.
Qed.
(** Positive on [0, w] and on [l, h], found by halving [n] times at most. *)
Fixpoint ppos0 (n : nat) (cs : list Q) (w : Q) : bool :=
  if qlt 0 (plow cs w) then true else
  match n with
  | O => false
  | S n => let m := Qred (w / (2 # 1)) in
           if ppos0 n cs m then ppos0 n (pshift cs m) m else false
  end.
Lemma ppos0_R n : forall cs w x, ppos0 n cs w = true -> 0 <= x <= Q2R w -> 0 < peval (map Q2R cs) x.
Proof.
  induction n as [|n IH]; intros cs w x H I; cbn [ppos0] in H;
    destruct (qlt 0 (plow cs w)) eqn:Q.
  - apply qlt_R in Q. rewrite Q2R_0 in Q. pose proof (plow_R cs w x I). lra.
  - discriminate.
  - apply qlt_R in Q. rewrite Q2R_0 in Q. pose proof (plow_R cs w x I). lra.
  - cbv zeta in H. set (m := Qred (w / (2 # 1))) in *.
    assert (M : Q2R m = Q2R w / 2).
    { unfold m. rewrite Q2R_red, Q2R_div by discriminate. now rewrite Q2R_Z. }
    destruct (ppos0 n cs m) eqn:H1; [|discriminate]. clearbody m.
    destruct (Rle_dec x (Q2R m)) as [C | C].
    + apply (IH cs m); auto. lra.
    + replace x with ((x - Q2R m) + Q2R m) by lra. rewrite <- pshift_R.
      apply (IH _ m); auto. lra.
Qed.
Definition ppos (n : nat) (cs : list Q) (l h : Q) : bool := ppos0 n (pshift cs l) (Qred (h - l)).
Lemma ppos_R n cs l h x : ppos n cs l h = true -> Q2R l <= x <= Q2R h -> 0 < peval (map Q2R cs) x.
Proof.
  intros H I. replace x with ((x - Q2R l) + Q2R l) by lra. rewrite <- pshift_R.
  apply (ppos0_R n _ _ _ H). rewrite Q2R_red, Q2R_minus. lra.
Qed.

(** The coefficients of a polynomial fit. *)
Definition pcoefs {A} (k : kind) (g : args A) : option (list A) :=
  match k with
  | Linear => Some [g_a g; g_b g]
  | Quadratic => Some [g_a g; g_b g; g_c g]
  | Cubic => Some [g_a g; g_b g; g_c g; g_d g]
  | Quartic => Some [g_a g; g_b g; g_c g; g_d g; g_e g]
  | Quintic => Some [g_a g; g_b g; g_c g; g_d g; g_e g; g_f g]
  | _ => None
  end.
Lemma pcoefs_R k g cs x y : pcoefs k g = Some cs -> formula Rpower k (toR g) x y = peval (map Q2R cs) x.
Proof.
  destruct k; cbn [pcoefs]; intro H; try discriminate H; injection H as <-;
    cbn [map peval formula toR amap g_a g_b g_c g_d g_e g_f]; ring.
Qed.
(** Everywhere above [m]. *)
Definition q_above (n : nat) (m : Q) (q : kind * args Q) : bool :=
  let '(k, g) := q in
  q_ctor k g &&
  match k with
  | Power => qle m 0 && qlt 0 (g_a g)
  | _ => match pcoefs k g with
         | Some (c :: cs) => qlt 0 (g_minx g) && ppos n (Qred (c - m) :: cs) (g_minx g) (g_maxx g)
         | _ => false end
  end.
Lemma q_above_R n m k g o : q_above n m (k, g) = true -> accepted Rpower k (toR g) o ->
  forall x y, Q2R m < fget sqrt exp log10 Rpower (k, o) x y.
Proof.
  unfold q_above. intros H [o0 A] x y. apply andb_prop in H as [H0 H].
  pose proof (C119_get Rpower k o0 o (toR g) A x y) as E. unfold getR in E. unfold fget. cbn [fst snd].
  rewrite E. clear E.
  assert (L : g_minx (toR g) < g_maxx (toR g)).
  { unfold q_ctor in H0. apply andb_prop in H0 as [H0 _]. apply q_proper_R in H0. now apply H0. }
  pose proof (into_in _ x _ L) as I. set (xx := into _ x _) in *. clearbody xx.
  assert (POLY : forall cs, pcoefs k g = Some cs ->
    match cs with c :: cs => qlt 0 (g_minx g) && ppos n (Qred (c - m) :: cs) (g_minx g) (g_maxx g) | _ => false end = true ->
    forall yy, Q2R m < formula Rpower k (toR g) xx yy).
  { intros cs PC Q yy. rewrite (pcoefs_R k g cs xx yy PC). destruct cs as [|c cs]; [discriminate|].
    apply andb_prop in Q as [Q1 Q2]. apply qlt_R in Q1. rewrite Q2R_0 in Q1.
    pose proof (ppos_R n _ _ _ xx Q2 I) as P. cbn [map peval] in P |- *.
    rewrite Q2R_red, Q2R_minus in P. lra. }
  destruct k; try discriminate H; try (eapply POLY; [reflexivity|exact H]).
  cbn [two_vars]. apply andb_prop in H as [H1 H2]. apply qle_R in H1. apply qlt_R in H2.
  rewrite Q2R_0 in H1, H2. cbn [formula]. change (g_a (toR g)) with (Q2R (g_a g)).
  assert (0 < Rpower (g_b (toR g)) xx) by apply exp_pos. nra.
Qed.
