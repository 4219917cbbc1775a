(** * Fluid property functions that invert each other (C122) *)
From Coq Require Import Reals Bool ZArith Lra Lia List Psatz.
From Verif Require Import Num MathUtil Fluid Fits Spec_Fits FluidTypes Props_Fits.
Open Scope R_scope.

Section INV.
Variable pw : R -> R -> R.
Let fgetR := fget sqrt exp log10 pw.
Let densityR := get_plain sqrt exp log10 pw.
Let pressureR := get_pressure sqrt exp log10 pw.
Let enthalpyR := get_enthalpy sqrt exp log10 pw.
Let temperatureR := get_temperature sqrt exp log10 pw.

(** A fit that init has accepted, whatever it was before. *)
Definition accepted (k : kind) (g : args R) (o : fit R) : Prop :=
  exists o0, initR pw k o0 g = (o, false).

Lemma acc_get k g o x y : accepted k g o ->
  inside (g_minx g) x (g_maxx g) -> (two_vars k = true -> inside (g_miny g) y (g_maxy g)) ->
  fgetR (k, o) x y = formula pw k g x y.
Proof.
  intros [o0 A] IX IY. unfold fgetR, fget. cbn [fst snd].
  pose proof (C119_get pw k o0 o g A x y) as E. unfold getR in E. rewrite E.
  rewrite into_id by exact IX. destruct (two_vars k); [|reflexivity].
  now rewrite into_id by auto.
Qed.
Lemma floor_id (r : R) : Reps <= r -> (if r <~ neps then neps else r) = r.
Proof. intro H. cbn [nlt neps RNum]. now rewrite Rltb_false. Qed.

Lemma zq : zero_only Quotient <> None.
Proof. unfold zero_only. generalize (/ IZR (2 ^ 23)). discriminate. Qed.

(** The density of an ideal gas, a p / t, and its pressure, rho t / a. *)
Theorem C122_ideal_gas : forall gd gp od op,
  accepted Quotient gd od -> accepted Product gp op -> g_a gp * g_a gd = 1 ->
  forall t, inside (g_minx gd) t (g_maxx gd) -> inside (g_minx gp) t (g_maxx gp) ->
  (forall p, inside (g_miny gd) p (g_maxy gd) -> Reps <= p ->
     inside (g_miny gp) (g_a gd * p / t) (g_maxy gp) ->
     pressureR (Product, op) t (densityR (Quotient, od) t p) = p) /\
  (forall rho, inside (g_miny gp) rho (g_maxy gp) -> Reps <= g_a gp * t * rho ->
     inside (g_miny gd) (g_a gp * t * rho) (g_maxy gd) ->
     densityR (Quotient, od) t (pressureR (Product, op) t rho) = rho).
Proof.
  intros gd gp od op AD AP AA t ID IP.
  assert (T0 : t <> 0).
  { destruct AD as [o0 A]. pose proof (C121_regular pw Quotient o0 od gd A) as Z.
    specialize (Z (or_intror (or_introl zq)) t). now rewrite into_id in Z by exact ID. }
  assert (A0 : g_a gd <> 0) by (intro Z; rewrite Z in AA; lra).
  split; intros v IV EV IV2.
  - unfold densityR, get_plain. fold fgetR. rewrite (acc_get _ _ _ _ _ AD ID) by auto.
    unfold pressureR, get_pressure. fold fgetR. cbv zeta. cbn [formula].
    rewrite (acc_get _ _ _ _ _ AP IP) by (intros _; exact IV2). cbn [formula].
    replace (g_a gp * t * (g_a gd * v / t)) with (g_a gp * g_a gd * v) by (field; exact T0).
    rewrite AA, Rmult_1_l. now apply floor_id.
  - unfold pressureR, get_pressure. fold fgetR. cbv zeta.
    rewrite (acc_get _ _ _ _ _ AP IP) by auto. cbn [formula]. rewrite floor_id by exact EV.
    unfold densityR, get_plain. fold fgetR.
    rewrite (acc_get _ _ _ _ _ AD ID) by auto. cbn [formula].
    replace (g_a gd * (g_a gp * t * v) / t) with (g_a gp * g_a gd * v) by (field; exact T0).
    rewrite AA. ring.
Qed.

(** The density of a liquid, linear in the pressure, where it depends on it. *)
Definition same_coefs (g1 g2 : args R) : Prop :=
  g_a g1 = g_a g2 /\ g_b g1 = g_b g2 /\ g_c g1 = g_c g2 /\
  g_d g1 = g_d g2 /\ g_e g1 = g_e g2 /\ g_f g1 = g_f g2.
Theorem C122_liquid : forall gd gp od op,
  accepted QuadLin gd od -> accepted QuadLinInv gp op -> same_coefs gd gp ->
  forall t, inside (g_minx gd) t (g_maxx gd) -> inside (g_minx gp) t (g_maxx gp) ->
  divisor QuadLinInv gp t <> 0 ->
  (forall p, inside (g_miny gd) p (g_maxy gd) -> Reps <= p ->
     inside (g_miny gp) (formula pw QuadLin gd t p) (g_maxy gp) ->
     pressureR (QuadLinInv, op) t (densityR (QuadLin, od) t p) = p) /\
  (forall rho, inside (g_miny gp) rho (g_maxy gp) -> Reps <= formula pw QuadLinInv gp t rho ->
     inside (g_miny gd) (formula pw QuadLinInv gp t rho) (g_maxy gd) ->
     densityR (QuadLin, od) t (pressureR (QuadLinInv, op) t rho) = rho).
Proof.
  intros gd gp od op AD AP (E1 & E2 & E3 & E4 & E5 & E6) t ID IP D0.
  split; intros v IV EV IV2.
  - unfold densityR, get_plain. fold fgetR. rewrite (acc_get _ _ _ _ _ AD ID) by auto.
    unfold pressureR, get_pressure. fold fgetR. cbv zeta.
    rewrite (acc_get _ _ _ _ _ AP IP) by (intros _; exact IV2).
    assert (F : formula pw QuadLinInv gp t (formula pw QuadLin gd t v) = v).
    { cbn [formula divisor] in *. rewrite E1, E2, E3, E4, E5, E6. field. exact D0. }
    rewrite F. now apply floor_id.
  - unfold pressureR, get_pressure. fold fgetR. cbv zeta.
    rewrite (acc_get _ _ _ _ _ AP IP) by auto. rewrite floor_id by exact EV.
    unfold densityR, get_plain. fold fgetR. rewrite (acc_get _ _ _ _ _ AD ID) by auto.
    cbn [formula divisor] in *. rewrite E1, E2, E3, E4, E5, E6. field. exact D0.
Qed.

(** Temperature and specific enthalpy: h = (a + b t) t and its root. *)
Theorem C122_enthalpy : forall gc gt oc ot,
  accepted Linear gc oc -> accepted QuadraticRoot gt ot ->
  g_a gt = g_a gc -> g_b gt = g_b gc ->
  (forall t p, inside (g_minx gc) t (g_maxx gc) ->
     inside (g_minx gt) ((g_a gc + g_b gc * t) * t) (g_maxx gt) ->
     0 <= g_a gc + 2 * g_b gc * t ->
     temperatureR (QuadraticRoot, ot) (enthalpyR (Linear, oc) t p) p = t) /\
  (forall h p, inside (g_minx gt) h (g_maxx gt) -> 0 <= g_a gc ^ 2 + 4 * g_b gc * h ->
     inside (g_minx gc) (temperatureR (QuadraticRoot, ot) h p) (g_maxx gc) ->
     enthalpyR (Linear, oc) (temperatureR (QuadraticRoot, ot) h p) p = h).
Proof.
  intros gc gt oc ot AC AT EA EB.
  assert (B0 : g_b gc <> 0).
  { destruct AT as [o0 A]. pose proof (C121_regular pw QuadraticRoot o0 ot gt A) as Z.
    specialize (Z (or_intror (or_intror (or_introl eq_refl))) 0). cbn [divisor] in Z. lra. }
  split.
  - intros t p IT IH M. unfold enthalpyR, get_enthalpy. fold fgetR.
    rewrite (acc_get _ _ _ _ _ AC IT) by discriminate. cbn [formula nmul RNum].
    unfold temperatureR, get_temperature. fold fgetR.
    rewrite (acc_get _ _ _ _ _ AT IH) by discriminate. cbn [formula]. rewrite EA, EB.
    replace (g_a gc ^ 2 + 4 * g_b gc * ((g_a gc + g_b gc * t) * t))
      with ((g_a gc + 2 * g_b gc * t) * (g_a gc + 2 * g_b gc * t)) by ring.
    rewrite sqrt_square by exact M. field. exact B0.
  - intros h p IH M IT. set (t := temperatureR (QuadraticRoot, ot) h p) in *.
    unfold enthalpyR, get_enthalpy. fold fgetR.
    rewrite (acc_get _ _ _ _ _ AC IT) by discriminate. cbn [formula nmul RNum].
    unfold t, temperatureR, get_temperature. fold fgetR.
    rewrite (acc_get _ _ _ _ _ AT IH) by discriminate. cbn [formula]. rewrite EA, EB.
    pose proof (sqrt_sqrt _ M) as SS. set (s := sqrt (g_a gc ^ 2 + 4 * g_b gc * h)) in *. clearbody s.
    apply (Rmult_eq_reg_l (4 * g_b gc)); [|lra].
    replace (4 * g_b gc * ((g_a gc + g_b gc * ((- g_a gc + s) / (2 * g_b gc))) * ((- g_a gc + s) / (2 * g_b gc))))
      with (s * s - g_a gc ^ 2) by (field; exact B0).
    rewrite SS. ring.
Qed.
End INV.
Print Assumptions C122_ideal_gas.
Print Assumptions C122_liquid.
Print Assumptions C122_enthalpy.

(** Saturation pressure and temperature: log10 p = a + b r + c r^2 with r = tc / t, on
    the falling side of the parabola.  The power function is that of the reals. *)
Definition psatR := get_psat sqrt exp log10 Rpower.
Definition tsatR := get_tsat sqrt exp log10 Rpower.

Lemma log10_pow y : log10 (Rpower 10 y) = y.
Proof.
  unfold log10, Rpower. rewrite ln_exp. field. apply Rgt_not_eq, Rlt_gt.
  rewrite <- ln_1. apply ln_increasing; lra.
Qed.
Lemma pow_log10 x : 0 < x -> Rpower 10 (log10 x) = x.
Proof.
  intro H. unfold log10, Rpower.
  replace (ln x / ln 10 * ln 10) with (ln x).
  - now apply exp_ln.
  - field. apply Rgt_not_eq, Rlt_gt. rewrite <- ln_1. apply ln_increasing; lra.
Qed.

Theorem C122_saturation : forall gp gt op ot tc,
  accepted Rpower Quadratic gp op -> accepted Rpower Tsat gt ot -> 0 < tc ->
  g_a gt = g_a gp -> g_b gt = g_b gp -> g_c gt = g_c gp ->
  forall t, Reps <= t -> inside (g_minx gp) (tc / t) (g_maxx gp) ->
  g_b gp + 2 * g_c gp * (tc / t) <= 0 ->
  inside (g_minx gt) (psatR tc (Quadratic, op) t) (g_maxx gt) ->
  tsatR tc (Tsat, ot) (psatR tc (Quadratic, op) t) = t.
Proof.
  intros gp gt op ot tc AP AT TC EA EB EC t T0 IR M IP. pose proof Reps_pos as E0.
  assert (C0 : g_c gp <> 0).
  { destruct AT as [o0 A]. pose proof (C121_regular Rpower Tsat o0 ot gt A) as Z.
    specialize (Z (or_intror (or_intror (or_intror eq_refl))) 0). cbn [divisor] in Z. lra. }
  assert (MX : nmax t neps = t).
  { unfold nmax. cbn [nlt neps RNum]. now rewrite Rltb_false. }
  assert (PS : psatR tc (Quadratic, op) t
               = Rpower 10 (g_a gp + g_b gp * (tc / t) + g_c gp * (tc / t) ^ 2)).
  { unfold psatR, get_psat. rewrite MX. cbn [ndiv n0 RNum].
    rewrite (acc_get Rpower _ _ _ _ _ AP IR) by discriminate. reflexivity. }
  unfold tsatR, get_tsat. cbn [n0 RNum ndiv].
  rewrite (acc_get Rpower _ _ _ _ _ AT IP) by discriminate. cbn [formula].
  rewrite PS, log10_pow, EA, EB, EC. set (r := tc / t) in *.
  replace (g_b gp ^ 2 - 4 * g_c gp * (g_a gp - (g_a gp + g_b gp * r + g_c gp * r ^ 2)))
    with (- (g_b gp + 2 * g_c gp * r) * - (g_b gp + 2 * g_c gp * r)) by ring.
  rewrite sqrt_square by lra.
  replace ((- g_b gp - - (g_b gp + 2 * g_c gp * r)) / (2 * g_c gp)) with r by (field; exact C0).
  unfold r. field. split; lra.
Qed.
Print Assumptions C122_saturation.

(** And the other way round. *)
Theorem C122_saturation_back : forall gp gt op ot tc,
  accepted Rpower Quadratic gp op -> accepted Rpower Tsat gt ot -> 0 < tc ->
  g_a gt = g_a gp -> g_b gt = g_b gp -> g_c gt = g_c gp ->
  forall p, 0 < p -> inside (g_minx gt) p (g_maxx gt) ->
  0 <= g_b gp ^ 2 - 4 * g_c gp * (g_a gp - log10 p) ->
  Reps <= tsatR tc (Tsat, ot) p ->
  inside (g_minx gp) (tc / tsatR tc (Tsat, ot) p) (g_maxx gp) ->
  psatR tc (Quadratic, op) (tsatR tc (Tsat, ot) p) = p.
Proof.
  intros gp gt op ot tc AP AT TC EA EB EC p P0 IP M T0 IR. pose proof Reps_pos as E0.
  assert (C0 : g_c gp <> 0).
  { destruct AT as [o0 A]. pose proof (C121_regular Rpower Tsat o0 ot gt A) as Z.
    specialize (Z (or_intror (or_intror (or_intror eq_refl))) 0). cbn [divisor] in Z. lra. }
  set (t := tsatR tc (Tsat, ot) p) in *.
  assert (MX : nmax t neps = t).
  { unfold nmax. cbn [nlt neps RNum]. now rewrite Rltb_false. }
  unfold psatR, get_psat. rewrite MX. cbn [ndiv n0 RNum].
  rewrite (acc_get Rpower _ _ _ _ _ AP IR) by discriminate. cbn [formula].
  assert (RT : tc / t = (- g_b gp - sqrt (g_b gp ^ 2 - 4 * g_c gp * (g_a gp - log10 p))) / (2 * g_c gp)).
  { assert (t = tc / ((- g_b gp - sqrt (g_b gp ^ 2 - 4 * g_c gp * (g_a gp - log10 p))) / (2 * g_c gp))) as TT.
    { unfold t, tsatR, get_tsat. cbn [n0 RNum ndiv].
      rewrite (acc_get Rpower _ _ _ _ _ AT IP) by discriminate. cbn [formula].
      now rewrite EA, EB, EC. }
    set (d := (- g_b gp - _) / _) in *. rewrite TT. clearbody d.
    assert (D0 : d <> 0). { intro Z. rewrite Z in TT. unfold Rdiv in TT. rewrite Rinv_0 in TT. lra. }
    field. split; lra. }
  rewrite RT. pose proof (sqrt_sqrt _ M) as SS.
  set (s := sqrt _) in *. clearbody s. clearbody t. clear RT MX T0 IR.
  transitivity (Rpower 10 (log10 p)); [|now apply pow_log10].
  change (ndec 10 0 : R) with 10. f_equal.
  apply (Rmult_eq_reg_l (4 * g_c gp)); [|lra].
  replace (4 * g_c gp * (g_a gp + g_b gp * ((- g_b gp - s) / (2 * g_c gp)) + g_c gp * ((- g_b gp - s) / (2 * g_c gp)) ^ 2))
    with (4 * g_c gp * g_a gp + (s * s - g_b gp ^ 2)) by (field; exact C0).
  rewrite SS. ring.
Qed.
Print Assumptions C122_saturation_back.

(** "Divide by zero is protected against in initialization of FluidTsatFit": the ratio
    tc / t it gives is positive for every pressure, if its range is. *)
Theorem C122_tsat_positive : forall (pw : R -> R -> R) g o,
  accepted pw Tsat g o -> 0 < g_minx g ->
  forall p, Reps <= fget sqrt exp log10 pw (Tsat, o) p 0.
Proof.
  intros pw g o [o0 A] MP p. destruct (init_done pw Tsat o0 o g A) as (PR & PA & ST).
  pose proof PR as (_ & L & _). cbn [passed] in PA. pose proof (nz_abs _ PA) as C0.
  unfold fget. cbn [fst snd]. pose proof (C119_get pw Tsat o0 o g A p 0) as E. unfold getR in E.
  rewrite E. clear E. cbn [two_vars].
  pose proof (into_in (g_minx g) p (g_maxx g) L) as I.
  set (x := into _ p _) in *. clearbody x.
  (* the checks at the ends *)
  assert (CK : forall z, z = g_minx g \/ z = g_maxx g ->
     0 <= g_b g ^ 2 - 4 * g_c g * (g_a g - log10 z) /\ Reps <= formula pw Tsat g z 0).
  { intros z Z. unfold initR, init, base_init in A.
    destruct (yrange Tsat g) as [lo hi]. destruct (negb (g_named g)); [discriminate|].
    destruct (g_maxx g <=~ g_minx g); [discriminate|]. destruct (hi <=~ lo); [discriminate|].
    cbv beta iota zeta in A. destruct (nabs (g_c g) <~ neps); [discriminate|].
    match type of A with (if ?b then _ else _) = _ => destruct b eqn:B; [discriminate|] end.
    injection A as <-. apply orb_false_elim in B as [B B4]. apply orb_false_elim in B as [B B3].
    apply orb_false_elim in B as [B1 B2].
    rewrite <- (evaluate_formula pw Tsat o0 _ g z 0 ST PA) by (intro Q; exfalso; now apply Q).
    unfold set_flag, set_coefs, evaluate in *.
    cbn [f_minx f_maxx f_miny f_maxy f_a f_b f_c f_d f_e f_f f_flag] in *.
    cbn [nlt n0 neps nsub nmul nopp ndiv ndec RNum Rdec] in *.
    change (IZR 4) with 4 in *.
    destruct Z as [-> | ->].
    - destruct (Rltb_spec (g_b g * g_b g - 4 * g_c g * (g_a g - log10 (g_minx g))) 0); [discriminate|].
      match type of B3 with Rltb ?a ?b = _ => destruct (Rltb_spec a b); [discriminate|] end.
      split; [simpl; lra|lra].
    - destruct (Rltb_spec (g_b g * g_b g - 4 * g_c g * (g_a g - log10 (g_maxx g))) 0); [discriminate|].
      match type of B4 with Rltb ?a ?b = _ => destruct (Rltb_spec a b); [discriminate|] end.
      split; [simpl; lra|lra]. }
  destruct (CK _ (or_introl eq_refl)) as [R1 F1]. destruct (CK _ (or_intror eq_refl)) as [R2 F2]. clear CK.
  assert (LG : log10 (g_minx g) <= log10 x <= log10 (g_maxx g)).
  { assert (0 < ln 10) by (rewrite <- ln_1; apply ln_increasing; lra).
    assert (ML : forall a b, 0 < a -> a <= b -> log10 a <= log10 b).
    { intros a b a0 [ab | ->]; [|lra]. unfold log10. apply Rmult_le_compat_r.
      - now apply Rlt_le, Rinv_0_lt_compat.
      - left. now apply ln_increasing. }
    split; apply ML; lra. }
  cbn [formula] in *. revert R1 R2 F1 F2 LG. generalize (log10 (g_minx g)) (log10 (g_maxx g)) (log10 x).
  intros l1 l2 l R1 R2 F1 F2 LG.
  destruct (Rtotal_order (g_c g) 0) as [CN | [CZ | CP]]; [|lra|].
  - (* c < 0: the value falls with l *)
    apply (Rle_trans _ _ _ F2). unfold Rdiv.
    assert (/ (2 * g_c g) < 0) by (apply Rinv_lt_0_compat; lra).
    assert (S : sqrt (g_b g ^ 2 - 4 * g_c g * (g_a g - l2)) <= sqrt (g_b g ^ 2 - 4 * g_c g * (g_a g - l))).
    { apply sqrt_le_1_alt. nra. }
    nra.
  - apply (Rle_trans _ _ _ F2). unfold Rdiv.
    assert (0 < / (2 * g_c g)) by (apply Rinv_0_lt_compat; lra).
    assert (S : sqrt (g_b g ^ 2 - 4 * g_c g * (g_a g - l)) <= sqrt (g_b g ^ 2 - 4 * g_c g * (g_a g - l2))).
    { apply sqrt_le_1_alt. nra. }
    nra.
Qed.
Print Assumptions C122_tsat_positive.
