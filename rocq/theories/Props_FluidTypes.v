(** The fluids GUNNS defines (C123 to C125).  The functions of the library are the
    real ones, so the fits are the ones the constructors would make without rounding. *)
From Coq Require Import Floats.
From Coq Require Import Reals Bool ZArith QArith Qreals Lra Lia List Psatz.
From Verif Require Import Num MathUtil Fluid Fits Spec_Fits FluidTypes Props_Fits Props_FitInverse FluidTypesQ.
Import ListNotations.
Open Scope R_scope.

(** A fit of a defined fluid, constructed; its arguments as reals. *)
Definition built (q : kind * args lit) : option (kind * fit R) :=
  build sqrt exp log10 Rpower (kmap ev q).
Definition arg (q : kind * args lit) : args R := amap ev (snd q).
Definition in_range (q : kind * args lit) (t : R) : Prop := inside (g_minx (arg q)) t (g_maxx (arg q)).

Definition list_of {A} (o : option A) : list A := match o with Some a => [a] | None => [] end.
Definition fits {A} (f : ftype A) : list (kind * args A) :=
  [y_visc f; y_cp f; y_k f; y_pr f; y_gam f; y_temp f; y_psat f; y_tsat f; y_hvap f]
  ++ list_of (y_rho f) ++ list_of (y_press f).

Definition densR := get_plain sqrt exp log10 Rpower.
Definition presR := get_pressure sqrt exp log10 Rpower.
Definition enthR := get_enthalpy sqrt exp log10 Rpower.
Definition tempR := get_temperature sqrt exp log10 Rpower.

Definition argq (q : kind * args lit) : args Q := amap evq (snd q).
Lemma built_acc q b : built q = Some b ->
  b = (fst q, snd b) /\ accepted Rpower (fst q) (arg q) (snd b).
Proof.
  unfold built, build. cbn [kmap fst snd]. unfold ctor.
  set (s := match fst q with QuadraticRoot => _ | Tsat => _ | _ => _ end).
  destruct (init sqrt exp log10 Rpower (fst q) s (amap ev (snd q))) as [o e] eqn:I.
  destruct e; [discriminate|]. intro H. injection H as <-. cbn [snd]. split; [reflexivity|].
  exists s. exact I.
Qed.
Lemma acc_proper k g o : accepted Rpower k g o -> proper k g.
Proof. intros [o0 A]. now destruct (init_done Rpower k o0 o g A). Qed.

Lemma arg_q q : wfa (snd q) = true -> arg q = toR (argq q).
Proof. intro W. symmetry. exact (toR_ev _ W). Qed.

Ltac each I := unfold defined in I; cbn [In] in I; repeat destruct I as [<- | I]; [..|destruct I].

(** ** C123: the fits of a fluid can be constructed and belong together *)
Definition q_fits (f : ftype lit) : bool :=
  forallb (fun q => wfa (snd q) && q_ctor (fst q) (argq q)) (fits f).
Theorem C123_constructs : forall f, In f defined -> forall q, In q (fits f) -> built q <> None.
Proof.
  assert (K : forallb q_fits defined = true) by (vm_compute; reflexivity).
  intros f I q J. rewrite forallb_forall in K. pose proof (K f I) as Q. unfold q_fits in Q.
  rewrite forallb_forall in Q. specialize (Q q J). apply andb_prop in Q as [W Q].
  destruct (q_ctor_R _ _ Q) as (o & C & _). rewrite <- arg_q in C by exact W.
  unfold built, build, kmap. cbn [fst snd]. unfold ctorR, arg in C. rewrite C. discriminate.
Qed.
Print Assumptions C123_constructs.

(** *** Temperature and enthalpy *)
Definition q_temp (f : ftype lit) : bool :=
  wfa (snd (y_cp f)) && wfa (snd (y_temp f)) &&
  match y_cp f, y_temp f with
  | (Linear, gc), (QuadraticRoot, gt) =>
      let c := amap evq gc in let t := amap evq gt in
      qeq (g_a c) (g_a t) && qeq (g_b c) (g_b t) &&
      qle 0 (g_a c + 2 * g_b c * g_minx c) && qle 0 (g_a c + 2 * g_b c * g_maxx c) &&
      qle (g_minx t) ((g_a c + g_b c * g_minx c) * g_minx c) &&
      qle ((g_a c + g_b c * g_maxx c) * g_maxx c) (g_maxx t)
  | _, _ => false
  end.
Lemma Q2R_2 : Q2R 2 = 2. Proof. change (Q2R 2) with (Q2R (2 # 1)). apply Q2R_Z. Qed.
Ltac qpush := repeat progress rewrite ?Q2R_plus, ?Q2R_minus, ?Q2R_mult, ?Q2R_opp, ?qeps_R, ?Q2R_0, ?Q2R_1, ?Q2R_2, ?Q2R_Z in *.

Lemma temp_inv f : q_temp f = true ->
  forall cp tmp, built (y_cp f) = Some cp -> built (y_temp f) = Some tmp ->
  forall t p, in_range (y_cp f) t -> tempR tmp (enthR cp t p) p = t.
Proof.
  unfold q_temp. intro H. apply andb_prop in H as [W H]. apply andb_prop in W as [W1 W2].
  intros cp tmp BC BT t p IT.
  apply built_acc in BC as [EC AC]. apply built_acc in BT as [ET AT].
  unfold in_range in IT. rewrite (arg_q _ W1) in *. rewrite (arg_q _ W2) in *. unfold argq in *.
  destruct (y_cp f) as [kc gc], (y_temp f) as [kt gt].
  destruct kc; try discriminate H; destruct kt; try discriminate H.
  cbn [fst snd] in *. repeat (apply andb_prop in H as [H ?]).
  set (c := amap evq gc) in *. set (d := amap evq gt) in *. clearbody c d.
  repeat match goal with X : qeq _ _ = true |- _ => apply qeq_R in X
                       | X : qle _ _ = true |- _ => apply qle_R in X end.
  qpush.
  destruct (C122_enthalpy Rpower (toR c) (toR d) (snd cp) (snd tmp) AC AT) as [K _];
    [symmetry; assumption|symmetry; assumption|].
  rewrite EC, ET. unfold toR, amap in *. cbn [g_minx g_maxx g_a g_b snd] in *.
  unfold inside in *. assert (SL : 0 <= Q2R (g_a c) + 2 * Q2R (g_b c) * t)
    by (destruct (Rle_dec 0 (Q2R (g_b c))); nra).
  apply K; [exact IT| |exact SL].
  clear K EC ET AC AT.
  set (a := Q2R (g_a c)) in *. set (b := Q2R (g_b c)) in *. set (l := Q2R (g_minx c)) in *.
  set (u := Q2R (g_maxx c)) in *. clearbody a b l u.
  assert (0 <= (a + b * (l + t)) * (t - l)) by (apply Rmult_le_pos; lra).
  assert (0 <= (a + b * (u + t)) * (u - t)) by (apply Rmult_le_pos; lra).
  split; lra.
Qed.
Theorem C123_temperature : forall f, In f defined -> f <> ft_NTO -> f <> ft_MMH ->
  forall cp tmp, built (y_cp f) = Some cp -> built (y_temp f) = Some tmp ->
  forall t p, in_range (y_cp f) t -> tempR tmp (enthR cp t p) p = t.
Proof.
  intros f I N1 N2. apply temp_inv.
  each I; try (now destruct (N1 eq_refl)); try (now destruct (N2 eq_refl)); vm_compute; reflexivity.
Qed.
Print Assumptions C123_temperature.

(** The hottest dinitrogen tetroxide and monomethyl hydrazine: the largest enthalpy of
    the temperature's fit is below the enthalpy at the largest temperature. *)
Theorem C123_temperature_refuted : forall f, f = ft_NTO \/ f = ft_MMH ->
  In f defined /\
  exists cp tmp, built (y_cp f) = Some cp /\ built (y_temp f) = Some tmp /\
  exists t, in_range (y_cp f) t /\ forall p, tempR tmp (enthR cp t p) p <> t.
Proof.
  intros f F.
  assert (I : In f defined) by (destruct F; subst f; unfold defined; cbn [In]; tauto).
  split; [exact I|].
  pose proof (C123_constructs f I) as CC.
  assert (J1 : built (y_cp f) <> None) by (apply CC; cbn; auto).
  assert (J2 : built (y_temp f) <> None) by (apply CC; cbn; tauto).
  clear CC I.
  destruct (built (y_cp f)) as [cp|] eqn:BC; [|easy].
  destruct (built (y_temp f)) as [tmp|] eqn:BT; [|easy].
  exists cp, tmp. split; [reflexivity|]. split; [reflexivity|].
  apply built_acc in BC as [EC AC]. apply built_acc in BT as [ET AT].
  exists (g_maxx (arg (y_cp f))).
  pose proof (acc_proper _ _ _ AC) as (_ & L & _).
  pose proof (acc_proper _ _ _ AT) as (_ & L' & _).
  assert (IC : in_range (y_cp f) (g_maxx (arg (y_cp f)))) by (unfold in_range, inside; lra).
  split; [exact IC|]. intros p E.
  assert (KC : fst (y_cp f) = Linear) by (destruct F; subst f; reflexivity).
  assert (KT : fst (y_temp f) = QuadraticRoot) by (destruct F; subst f; reflexivity).
  rewrite KC in *. rewrite KT in *.
  destruct (C122_enthalpy Rpower _ _ _ _ AC AT) as [_ K];
    [destruct F; subst f; reflexivity|destruct F; subst f; reflexivity|].
  set (h := g_maxx (arg (y_temp f))) in *.
  assert (HH : enthR cp (g_maxx (arg (y_cp f))) p
    = (g_a (arg (y_cp f)) + g_b (arg (y_cp f)) * g_maxx (arg (y_cp f))) * g_maxx (arg (y_cp f))).
  { rewrite EC. unfold enthR, get_enthalpy.
    rewrite (acc_get Rpower _ _ _ _ _ AC); [reflexivity|exact IC|discriminate]. }
  assert (BIG : h < enthR cp (g_maxx (arg (y_cp f))) p).
  { rewrite HH. unfold h. destruct F; subst f; unfold arg; cbn; unfold Rdec; cbn; lra. }
  assert (SAME : forall x, tempR tmp x p = tempR tmp (into (g_minx (arg (y_temp f))) x h) p).
  { intro x. rewrite ET. unfold tempR, get_temperature, fget. cbn [fst snd].
    destruct AT as [o0 A]. pose proof (C119_get Rpower _ _ _ _ A) as G. unfold getR in G.
    rewrite !G. cbn [two_vars formula]. fold h.
    rewrite (into_id _ (into _ x h)); [reflexivity|]. now apply into_in. }
  rewrite SAME in E.
  assert (CL : into (g_minx (arg (y_temp f))) (enthR cp (g_maxx (arg (y_cp f))) p) h = h).
  { unfold into, Rmax, Rmin. repeat destruct Rle_dec; lra. }
  rewrite CL in E.
  specialize (K h p). rewrite <- ET, <- EC in K. fold enthR tempR in K.
  rewrite E in K. rewrite <- K in BIG; [lra| | |exact IC].
  - unfold inside. lra.
  - unfold h. destruct F; subst f; unfold arg; cbn; unfold Rdec; cbn; lra.
Qed.
Print Assumptions C123_temperature_refuted.

(** *** Pressure and density *)
Definition q_gas (gd gp : args lit) : bool :=
  wfa gd && wfa gp &&
  let d := amap evq gd in let p := amap evq gp in
  qeq (g_a p * g_a d) 1 && qlt 0 (g_a d) && qlt 0 (g_minx d) &&
  qeq (g_minx d) (g_minx p) && qeq (g_maxx d) (g_maxx p) &&
  qle (g_miny d) qeps &&
  qle (g_miny p * g_maxx d) (g_a d * qeps) &&
  qle (g_a d * g_maxy d) (g_maxy p * g_minx d) && qle 0 (g_miny p) && qle 0 (g_maxy p).
Definition qpart (a b c x : Q) := Qred (a + b * x + c * x * x).
Definition q_liq (gd gp : args lit) : bool :=
  wfa gd && wfa gp &&
  let d := amap evq gd in let p := amap evq gp in
  qeq (g_a d) (g_a p) && qeq (g_b d) (g_b p) && qeq (g_c d) (g_c p) &&
  qeq (g_d d) (g_d p) && qeq (g_e d) (g_e p) && qeq (g_f d) (g_f p) &&
  qlt 0 (g_minx d) && qeq (g_minx d) (g_minx p) && qeq (g_maxx d) (g_maxx p) &&
  qle (g_miny d) qeps && qle qeps (g_maxy d) &&
  ppos 8 [g_b d; g_d d; g_f d] (g_minx d) (g_maxx d) &&
  ppos 8 [g_a d - g_miny p; g_c d; g_e d]%Q (g_minx d) (g_maxx d) &&
  ppos 8 [g_maxy p - g_a d - g_maxy d * g_b d; - (g_c d + g_maxy d * g_d d);
           - (g_e d + g_maxy d * g_f d)]%Q (g_minx d) (g_maxx d).
Definition q_dens (f : ftype lit) : bool :=
  match y_rho f, y_press f with
  | Some (Quotient, gd), Some (Product, gp) => q_gas gd gp
  | Some (QuadLin, gd), Some (QuadLinInv, gp) => q_liq gd gp
  | None, None => true
  | _, _ => false
  end.

Lemma gas_inv gd gp rho pr : q_gas gd gp = true ->
  built (Quotient, gd) = Some rho -> built (Product, gp) = Some pr ->
  forall t p, in_range (Quotient, gd) t -> Reps <= p -> p <= g_maxy (arg (Quotient, gd)) ->
  presR pr t (densR rho t p) = p.
Proof.
  unfold q_gas. intros H BD BP. apply andb_prop in H as [W H]. apply andb_prop in W as [W1 W2].
  apply built_acc in BD as [ED AD]. apply built_acc in BP as [EP AP].
  unfold in_range. rewrite (arg_q (_, gd) W1) in *. rewrite (arg_q (_, gp) W2) in *.
  unfold argq in *. cbn [fst snd] in *. intros t p IT P0 PM. cbv zeta in H.
  set (d := amap evq gd) in *. set (q := amap evq gp) in *. clearbody d q.
  repeat (apply andb_prop in H as [H ?]).
  repeat match goal with X : qeq _ _ = true |- _ => apply qeq_R in X
                       | X : qle _ _ = true |- _ => apply qle_R in X
                       | X : qlt _ _ = true |- _ => apply qlt_R in X end.
  qpush.
  destruct (C122_ideal_gas Rpower (toR d) (toR q) (snd rho) (snd pr) AD AP) with (t := t) as [K _].
  - exact H.
  - exact IT.
  - unfold inside, toR, amap in *. cbn [g_minx g_maxx] in *. lra.
  - rewrite ED, EP. apply K; [|exact P0|].
    + unfold inside, toR, amap in *. cbn [g_minx g_maxx g_miny g_maxy] in *. lra.
    + unfold inside, toR, amap in *. cbn [g_minx g_maxx g_miny g_maxy g_a] in *.
      clear K ED EP AD AP. pose proof Reps_pos as E0.
      assert (T0 : 0 < t) by lra.
      split; apply (Rmult_le_reg_r t); auto; unfold Rdiv;
        rewrite ?Rmult_assoc, ?Rinv_l, ?Rmult_1_r, <- ?Rmult_assoc by lra.
      * apply Rle_trans with (Q2R (g_miny q) * Q2R (g_maxx d)); [apply Rmult_le_compat_l; lra|].
        apply Rle_trans with (Q2R (g_a d) * Reps); [assumption|]. apply Rmult_le_compat_l; lra.
      * apply Rle_trans with (Q2R (g_a d) * Q2R (g_maxy d)); [apply Rmult_le_compat_l; lra|].
        eapply Rle_trans; [eassumption|]. apply Rmult_le_compat_l; lra.
Qed.
Lemma liq_inv gd gp rho pr : q_liq gd gp = true ->
  built (QuadLin, gd) = Some rho -> built (QuadLinInv, gp) = Some pr ->
  forall t p, in_range (QuadLin, gd) t -> Reps <= p -> p <= g_maxy (arg (QuadLin, gd)) ->
  presR pr t (densR rho t p) = p.
Proof.
  unfold q_liq. intros H BD BP. apply andb_prop in H as [W H]. apply andb_prop in W as [W1 W2].
  apply built_acc in BD as [ED AD]. apply built_acc in BP as [EP AP].
  unfold in_range. rewrite (arg_q (_, gd) W1) in *. rewrite (arg_q (_, gp) W2) in *.
  unfold argq in *. cbn [fst snd] in *. intros t p IT P0 PM. cbv zeta in H.
  set (d := amap evq gd) in *. set (q := amap evq gp) in *. clearbody d q.
  apply andb_prop in H as [H V3]. apply andb_prop in H as [H V2]. apply andb_prop in H as [H V1].
  repeat (apply andb_prop in H as [H ?]).
  repeat match goal with X : qeq _ _ = true |- _ => apply qeq_R in X
                       | X : qle _ _ = true |- _ => apply qle_R in X
                       | X : qlt _ _ = true |- _ => apply qlt_R in X end.
  rewrite ?Q2R_0, ?qeps_R in *.
  pose proof IT as IT'. unfold inside in IT'. change (g_minx (toR d)) with (Q2R (g_minx d)) in *.
  change (g_maxx (toR d)) with (Q2R (g_maxx d)) in *.
  apply (ppos_R _ _ _ _ t) in V1, V2, V3; try exact IT'.
  cbn [map peval] in V1, V2, V3. qpush.
  pose proof Reps_pos as E0.
  destruct (C122_liquid Rpower (toR d) (toR q) (snd rho) (snd pr) AD AP) with (t := t) as [K _].
  - unfold same_coefs, toR, amap. cbn [g_a g_b g_c g_d g_e g_f]. auto 10.
  - exact IT.
  - unfold inside, toR, amap in *. cbn [g_minx g_maxx] in *. lra.
  - unfold divisor, toR, amap. cbn [g_b g_d g_f]. apply Rgt_not_eq, Rlt_gt.
    replace (Q2R (g_b q)) with (Q2R (g_b d)) by assumption.
    replace (Q2R (g_d q)) with (Q2R (g_d d)) by assumption.
    replace (Q2R (g_f q)) with (Q2R (g_f d)) by assumption. simpl. lra.
  - rewrite ED, EP. apply K; [|exact P0|].
    + unfold inside, toR, amap in *. cbn [g_minx g_maxx g_miny g_maxy] in *. lra.
    + unfold inside, toR, amap in *. cbn [formula g_minx g_maxx g_miny g_maxy g_a g_b g_c g_d g_e g_f] in *.
      clear K ED EP AD AP.
      set (A := Q2R (g_a d) + Q2R (g_c d) * t + Q2R (g_e d) * t ^ 2) in *.
      set (B := Q2R (g_b d) + Q2R (g_d d) * t + Q2R (g_f d) * t ^ 2) in *.
      assert (B0 : 0 < B) by (unfold B; simpl; lra).
      assert (A0 : Q2R (g_miny q) < A) by (unfold A; simpl; lra).
      assert (A1 : A + B * Q2R (g_maxy d) < Q2R (g_maxy q)) by (unfold A, B; simpl; lra).
      clearbody A B. split; nra.
Qed.
(** Without the density tables; liquid oxygen is different. *)
Theorem C123_pressure : forall f, In f defined -> f <> ft_OXYGEN ->
  forall qd qp rho pr, y_rho f = Some qd -> y_press f = Some qp ->
  built qd = Some rho -> built qp = Some pr ->
  forall t p, in_range qd t -> Reps <= p -> p <= g_maxy (arg qd) ->
  presR pr t (densR rho t p) = p.
Proof.
  intros f I N qd qp rho pr ED EP BD BP.
  assert (K : q_dens f = true) by (each I; try (now destruct (N eq_refl)); vm_compute; reflexivity).
  clear I N. unfold q_dens in K. rewrite ED, EP in K. destruct qd as [kd gd], qp as [kp gp].
  destruct kd; try discriminate K; destruct kp; try discriminate K.
  - now apply (liq_inv gd gp).
  - now apply (gas_inv gd gp).
Qed.
Print Assumptions C123_pressure.
(** The density of a gas is that of the ideal gas with the molecular weight the type gives. *)
Theorem C123_gas_law : forall f, In f defined -> y_gas f = true ->
  forall q rho, y_rho f = Some q -> built q = Some rho ->
  forall t p, in_range q t -> inside (g_miny (arg q)) p (g_maxy (arg q)) ->
  densR rho t p * (8314472 / 1000000) * t = p * ev (y_mw f).
Proof.
  intros f I G q rho E B t p IT IP.
  assert (K : fst q = Quotient /\ g_a (arg q) = ev (y_mw f) / ev (D 8314472 (-6))).
  { each I; cbn [y_gas y_rho] in G, E; try discriminate G; try discriminate E; injection E as <-; split; reflexivity. }
  destruct K as [K1 K2]. apply built_acc in B as [EB A]. rewrite K1 in *.
  assert (T0 : t <> 0).
  { destruct A as [o0 A]. pose proof (C121_regular Rpower Quotient o0 (snd rho) _ A) as Z.
    specialize (Z (or_intror (or_introl zq)) t). unfold in_range in IT. now rewrite into_id in Z by exact IT. }
  rewrite EB. unfold densR, get_plain. rewrite (acc_get Rpower _ _ _ _ _ A IT) by auto. cbn [formula]. rewrite K2.
  assert (R0 : ev (D 8314472 (-6)) = 8314472 / 1000000) by (cbn [ev]; rnum; unfold Rdec; cbn; lra).
  rewrite R0. field. exact T0.
Qed.
Print Assumptions C123_gas_law.
(** The compressibility in its density changes sign within the range, so that there is a
    temperature at which the density does not depend on the pressure. *)
Theorem C123_pressure_refuted : exists f qd qp rho pr, In f defined /\
  y_rho f = Some qd /\ y_press f = Some qp /\ built qd = Some rho /\ built qp = Some pr /\
  exists t, in_range qd t /\
  forall p p', g_miny (arg qd) <= p <= g_maxy (arg qd) -> g_miny (arg qd) <= p' <= g_maxy (arg qd) ->
    densR rho t p = densR rho t p'.
Proof.
  assert (I : In ft_OXYGEN defined) by (unfold defined; cbn [In]; tauto).
  pose proof (C123_constructs _ I) as CC.
  assert (J1 : built fitDensityOXYGEN <> None) by (apply CC; cbn; tauto).
  assert (J2 : built fitPressureOXYGEN <> None) by (apply CC; cbn; tauto).
  clear CC.
  destruct (built fitDensityOXYGEN) as [rho|] eqn:BD; [|easy].
  destruct (built fitPressureOXYGEN) as [pr|] eqn:BP; [|easy].
  exists ft_OXYGEN, fitDensityOXYGEN, fitPressureOXYGEN, rho, pr.
  split; [exact I|]. split; [reflexivity|]. split; [reflexivity|]. split; [exact BD|]. split; [exact BP|].
  apply built_acc in BD as [ED AD].
  pose proof (acc_proper _ _ _ AD) as (_ & L & _).
  set (G := arg fitDensityOXYGEN) in *.
  assert (ROOT : exists t, inside (g_minx G) t (g_maxx G) /\ g_b G + g_d G * t + g_f G * t ^ 2 = 0).
  { set (h := fun t => g_b G + g_d G * t + g_f G * t ^ 2).
    assert (C : continuity h) by (unfold h; reg).
    destruct (IVT h (g_minx G) (g_maxx G)) as (z & Z1 & Z2); auto.
    - unfold h, G, arg. cbn [fitDensityOXYGEN snd amap g_minx g_maxx g_b g_d g_f ev ndec RNum]. unfold Rdec; simpl; lra.
    - unfold h, G, arg. cbn [fitDensityOXYGEN snd amap g_minx g_maxx g_b g_d g_f ev ndec RNum]. unfold Rdec; simpl; lra.
    - exists z. split; [exact Z1|exact Z2]. }
  destruct ROOT as (t & IT & Z). exists t. split; [exact IT|].
  intros p p' P P'. rewrite ED. unfold densR, get_plain. change (fst fitDensityOXYGEN) with QuadLin in *.
  rewrite !(acc_get Rpower _ _ _ _ _ AD); auto. cbn [formula]. fold G. rewrite Z. ring.
Qed.
Print Assumptions C123_pressure_refuted.

(** *** Saturation pressure and temperature *)
Definition q_sat (f : ftype lit) : bool :=
  wfa (snd (y_psat f)) && wfa (snd (y_tsat f)) && wfl (y_tc f) && qlt 0 (evq (y_tc f)) &&
  match y_psat f, y_tsat f with
  | (Quadratic, gp), (Tsat, gt) =>
      let p := amap evq gp in let t := amap evq gt in
      qeq (g_a p) (g_a t) && qeq (g_b p) (g_b t) && qeq (g_c p) (g_c t) &&
      qle (g_b p + 2 * g_c p * g_minx p) 0 && qle (g_b p + 2 * g_c p * g_maxx p) 0 && qlt 0 (g_minx t)
  | _, _ => false
  end.
Theorem C123_saturation : forall f, In f defined ->
  forall ps ts, built (y_psat f) = Some ps -> built (y_tsat f) = Some ts ->
  let tc := (ev (y_tc f) : R) in
  (forall p, 0 < tsatR tc ts p) /\
  forall t, Reps <= t -> in_range (y_psat f) (tc / t) ->
  in_range (y_tsat f) (psatR tc ps t) -> tsatR tc ts (psatR tc ps t) = t.
Proof.
  intros f I ps ts BP BT tc.
  assert (H : q_sat f = true) by (each I; vm_compute; reflexivity). clear I.
  unfold q_sat in H. apply andb_prop in H as [W H]. do 3 (apply andb_prop in W as [W ?]).
  apply built_acc in BP as [EP AP]. apply built_acc in BT as [ET AT].
  assert (TC : 0 < tc).
  { unfold tc. rewrite <- evq_ev by assumption. rewrite <- Q2R_0. now apply qlt_R. }
  clearbody tc. unfold in_range.
  rewrite (arg_q _ W) in *. rewrite (arg_q (y_tsat f)) in * by assumption. unfold argq in *.
  destruct (y_psat f) as [kp gp], (y_tsat f) as [kt gt].
  destruct kp; try discriminate H; destruct kt; try discriminate H.
  cbn [fst snd] in *. cbv zeta in H.
  set (p := amap evq gp) in *. set (q := amap evq gt) in *. clearbody p q.
  repeat (apply andb_prop in H as [H ?]).
  repeat match goal with X : qeq _ _ = true |- _ => apply qeq_R in X
                       | X : qle _ _ = true |- _ => apply qle_R in X
                       | X : qlt (Qmake _ _) (g_minx _) = true |- _ => apply qlt_R in X end.
  qpush. split.
  - intro x. rewrite ET. unfold tsatR, get_tsat. cbn [ndiv RNum].
    pose proof (C122_tsat_positive Rpower (toR q) (snd ts) AT) as P. pose proof Reps_pos.
    apply Rdiv_lt_0_compat; [exact TC|]. eapply Rlt_le_trans; [eassumption|]. apply P. assumption.
  - intros t T0 IR IP. rewrite EP in IP |- *. rewrite ET.
    apply (C122_saturation (toR p) (toR q) _ _ tc AP AT TC); auto.
    unfold inside, toR, amap in *. cbn [g_minx g_maxx g_b g_c] in *.
    destruct (Rle_dec 0 (Q2R (g_c p))); nra.
Qed.
Print Assumptions C123_saturation.

(** ** C124: the properties are positive *)
Definition abovel (n : nat) (m : Q) (q : kind * args lit) : bool :=
  wfa (snd q) && q_above n m (fst q, argq q).
Lemma abovel_R n m q b : abovel n m q = true -> built q = Some b ->
  forall t p, Q2R m < fget sqrt exp log10 Rpower b t p.
Proof.
  intros H B t p. apply andb_prop in H as [W H]. apply built_acc in B as [E A].
  rewrite (arg_q _ W) in A. rewrite E. now apply (q_above_R n m _ (argq q)).
Qed.
Theorem C124_positive : forall f, In f defined ->
  forall q, q = y_cp f \/ q = y_k f \/ q = y_pr f \/
            q = y_visc f /\ f <> ft_HFE7000 /\ f <> ft_HYDROGEN ->
  forall b, built q = Some b -> forall t p, 0 < fget sqrt exp log10 Rpower b t p.
Proof.
  intros f I q C b B t p. rewrite <- Q2R_0. apply (abovel_R 8 0 q b); [|exact B]. clear B.
  destruct C as [-> | [-> | [-> | (-> & N1 & N2)]]];
    each I; try (now destruct (N1 eq_refl)); try (now destruct (N2 eq_refl)); vm_compute; reflexivity.
Qed.
Print Assumptions C124_positive.
Theorem C124_adiabatic : forall f, In f defined -> y_gas f = true ->
  f <> ft_NH3 -> f <> ft_CH4 -> f <> ft_CH4_REAL_GAS ->
  forall b, built (y_gam f) = Some b -> forall t p, 1 < fget sqrt exp log10 Rpower b t p.
Proof.
  intros f I G N1 N2 N3 b B t p. rewrite <- Q2R_1. apply (abovel_R 8 1 (y_gam f) b); [|exact B]. clear B.
  each I; try discriminate G; try (now destruct (N1 eq_refl)); try (now destruct (N2 eq_refl));
    try (now destruct (N3 eq_refl)); vm_compute; reflexivity.
Qed.
Print Assumptions C124_adiabatic.

(** A value at one temperature. *)
Lemma value_at q b cs x y : wfa (snd q) = true -> built q = Some b ->
  pcoefs (fst q) (argq q) = Some cs ->
  Q2R (g_minx (argq q)) <= x <= Q2R (g_maxx (argq q)) ->
  fget sqrt exp log10 Rpower b x y = peval (map Q2R cs) x.
Proof.
  intros W B PC I. apply built_acc in B as [E A]. rewrite (arg_q _ W) in A.
  rewrite E, (acc_get Rpower _ _ _ x y A).
  - now apply pcoefs_R.
  - exact I.
  - intro TV. destruct (fst q); try discriminate TV; discriminate PC.
Qed.
Fixpoint qeval (cs : list Q) (x : Q) : Q :=
  match cs with [] => 0%Q | c :: cs => Qred (c + x * qeval cs x) end.
Lemma qeval_R cs x : Q2R (qeval cs x) = peval (map Q2R cs) (Q2R x).
Proof.
  induction cs as [|c cs IH]; cbn [qeval map peval]; [apply Q2R_0|].
  rewrite Q2R_red, Q2R_plus, Q2R_mult, IH. reflexivity.
Qed.
Definition below_at (m : Q) (q : kind * args lit) (x : Q) : bool :=
  wfa (snd q) && qle (g_minx (argq q)) x && qle x (g_maxx (argq q)) &&
  match pcoefs (fst q) (argq q) with Some cs => qlt (qeval cs x) m | None => false end.
Lemma below_at_R m q x b : below_at m q x = true -> built q = Some b ->
  in_range q (Q2R x) /\ forall p, fget sqrt exp log10 Rpower b (Q2R x) p < Q2R m.
Proof.
  unfold below_at. intros H B. apply andb_prop in H as [H H3]. apply andb_prop in H as [H H2].
  apply andb_prop in H as [W H1]. apply qle_R in H1, H2.
  destruct (pcoefs (fst q) (argq q)) as [cs|] eqn:PC; [|discriminate]. apply qlt_R in H3.
  split; [unfold in_range; rewrite (arg_q _ W); split; assumption|]. intro p.
  rewrite (value_at q b cs _ p W B PC) by auto. rewrite <- qeval_R. exact H3.
Qed.
Theorem C124_viscosity_refuted : forall f, f = ft_HFE7000 \/ f = ft_HYDROGEN ->
  In f defined /\ exists b, built (y_visc f) = Some b /\
  exists t, in_range (y_visc f) t /\ forall p, fget sqrt exp log10 Rpower b t p < 0.
Proof.
  intros f F. assert (I : In f defined) by (destruct F; subst f; unfold defined; cbn [In]; tauto).
  split; [exact I|]. assert (J : built (y_visc f) <> None) by (apply (C123_constructs f I); cbn; auto).
  clear I. destruct (built (y_visc f)) as [b|] eqn:B; [|easy]. exists b. split; [reflexivity|].
  destruct F as [-> | ->].
  - exists (Q2R (248 # 1)). rewrite <- Q2R_0. apply below_at_R; [vm_compute; reflexivity|exact B].
  - exists (Q2R (273 # 10)). rewrite <- Q2R_0. apply below_at_R; [vm_compute; reflexivity|exact B].
Qed.
Print Assumptions C124_viscosity_refuted.
Theorem C124_adiabatic_refuted : forall f, f = ft_NH3 \/ f = ft_CH4 \/ f = ft_CH4_REAL_GAS ->
  In f defined /\ y_gas f = true /\ exists b, built (y_gam f) = Some b /\
  exists t, in_range (y_gam f) t /\ forall p, fget sqrt exp log10 Rpower b t p < 4 / 5.
Proof.
  intros f F. assert (I : In f defined) by (destruct F as [F | [F | F]]; subst f; unfold defined; cbn [In]; tauto).
  split; [exact I|]. split; [destruct F as [F | [F | F]]; subst f; reflexivity|].
  assert (J : built (y_gam f) <> None) by (apply (C123_constructs f I); cbn; tauto).
  clear I. destruct (built (y_gam f)) as [b|] eqn:B; [|easy]. exists b. split; [reflexivity|].
  replace (4 / 5) with (Q2R (4 # 5)) by (unfold Q2R; cbn; lra).
  exists (Q2R (2000 # 1)).
  destruct F as [-> | [-> | ->]]; apply below_at_R; solve [vm_compute; reflexivity|exact B].
Qed.
Print Assumptions C124_adiabatic_refuted.

(** ** C125: heat of vaporization *)
Definition q_hv (f : ftype lit) : bool :=
  wfa (snd (y_hvap f)) && wfl (y_tc f) && qlt 0 (evq (y_tc f)) &&
  match y_hvap f with
  | (Hvap, gl) => let g := amap evq gl in
      qlt 0 (g_a g) && qlt 0 (g_c g) && qlt 0 (g_minx g) && qeq (g_maxx g) 1
  | (Linear, gl) => let g := amap evq gl in qlt 1 (g_minx g)
  | _ => false
  end.
(** [pow] is any function with the values of pow at positive numbers and at 0: the
    standard library's Rpower is not, at 0. *)
Definition is_pow (pow : R -> R -> R) : Prop :=
  (forall x y, 0 < x -> pow x y = Rpower x y) /\ (forall y, 0 < y -> pow 0 y = 0).
Definition hvapR (pow : R -> R -> R) := get_hvap sqrt exp log10 pow.

(** It is positive below the critical temperature and there is none above; unless the
    first exponent is well below 0, as for hydrogen and helium, it only falls as it gets
    hotter. *)
Theorem C125_hvap : forall f, In f defined -> fst (y_hvap f) = Hvap ->
  forall pow, is_pow pow ->
  exists b, build sqrt exp log10 pow (kmap ev (y_hvap f)) = Some b /\
  let tc := (ev (y_tc f) : R) in 0 < tc /\
  (forall t, t < tc -> 0 < hvapR pow tc b t) /\
  (forall t, tc <= t -> hvapR pow tc b t = 0) /\
  (0 <= g_b (arg (y_hvap f)) + g_c (arg (y_hvap f)) ->
   forall t t', t <= t' -> hvapR pow tc b t' <= hvapR pow tc b t).
Proof.
  intros f I KH pow [PW P0].
  assert (H : q_hv f = true /\ q_fits f = true) by (each I; split; vm_compute; reflexivity).
  destruct H as [H HF]. clear I.
  assert (HQ : q_ctor Hvap (argq (y_hvap f)) = true).
  { unfold q_fits in HF. rewrite forallb_forall in HF. specialize (HF (y_hvap f)).
    rewrite KH in HF. assert (Z : wfa (snd (y_hvap f)) && q_ctor Hvap (argq (y_hvap f)) = true)
      by (apply HF; cbn; tauto). now apply andb_prop in Z as [_ Z]. }
  clear HF. unfold q_hv in H. apply andb_prop in H as [H HH].
  apply andb_prop in H as [H HT]. apply andb_prop in H as [W WT].
  assert (TC : 0 < (ev (y_tc f) : R)).
  { rewrite <- evq_ev by assumption. rewrite <- Q2R_0. now apply qlt_R. }
  set (tc := ev (y_tc f) : R) in *. clearbody tc.
  pose proof (arg_q _ W) as AQ. rewrite AQ. unfold argq in *.
  destruct (y_hvap f) as [k gl]. cbn [fst snd] in *. subst k.
  unfold arg in AQ. cbn [snd] in AQ. unfold build, kmap. cbn [fst snd]. rewrite AQ.
  set (g := amap evq gl) in *. clearbody g. cbv zeta in HH.
  unfold q_ctor in HQ. apply andb_prop in HQ as [HP HQ]. apply q_proper_R in HP.
  apply andb_prop in HQ as [H1 H2]. apply qle_R in H1, H2. rewrite qabs_R, Q2R_Z in H1, H2.
  repeat (apply andb_prop in HH as [HH ?]).
  repeat match goal with X : qeq _ _ = true |- _ => apply qeq_R in X
                       | X : qle _ _ = true |- _ => apply qle_R in X
                       | X : qlt (Qmake _ _) (g_a _) = true |- _ => apply qlt_R in X
                       | X : qlt (Qmake _ _) (g_c _) = true |- _ => apply qlt_R in X
                       | X : qlt (Qmake _ _) (g_minx _) = true |- _ => apply qlt_R in X end.
  qpush.
  unfold ctor. set (s := set_coefs fresh _ _ _ _ _ _).
  destruct (init sqrt exp log10 pow Hvap s (toR g)) as [o e] eqn:IN.
  assert (e = false) as ->.
  { pose proof (proj2 (proj2 (C121_accepts pow Hvap s (toR g))) eq_refl) as AC.
    unfold initR in AC. rewrite IN in AC. cbn [snd] in AC. apply AC. auto. }
  exists (Hvap, o). split; [reflexivity|]. split; [exact TC|].
  assert (V : forall t, hvapR pow tc (Hvap, o) t =
     let x := into (g_minx (toR g)) (t / tc) (g_maxx (toR g)) in
     g_a (toR g) * exp (- (g_b (toR g) * x)) * pow (1 - x) (g_c (toR g))).
  { intro t. unfold hvapR, get_hvap, fget. cbn [fst snd ndiv n0 RNum].
    pose proof (C119_get pow Hvap s o (toR g) IN (t / tc) 0) as G. unfold getR in G. exact G. }
  destruct HP as (_ & L & _).
  change (g_minx (toR g)) with (Q2R (g_minx g)) in *. change (g_maxx (toR g)) with (Q2R (g_maxx g)) in *.
  change (g_a (toR g)) with (Q2R (g_a g)) in *. change (g_b (toR g)) with (Q2R (g_b g)) in *.
  change (g_c (toR g)) with (Q2R (g_c g)) in *.
  set (a := Q2R (g_a g)) in *. set (bb := Q2R (g_b g)) in *. set (c := Q2R (g_c g)) in *.
  set (lo := Q2R (g_minx g)) in *. set (hi := Q2R (g_maxx g)) in *. clearbody a bb c lo hi.
  subst hi. cbv zeta in V.
  assert (X1 : forall t, t < tc -> into lo (t / tc) 1 < 1).
  { intros t T. assert (t / tc < 1) by (apply (Rmult_lt_reg_r tc); [exact TC|]; unfold Rdiv; rewrite Rmult_assoc, Rinv_l; lra).
    unfold into, Rmax, Rmin. repeat destruct Rle_dec; lra. }
  assert (X2 : forall t, tc <= t -> into lo (t / tc) 1 = 1).
  { intros t T. assert (1 <= t / tc) by (apply (Rmult_le_reg_r tc); [exact TC|]; unfold Rdiv; rewrite Rmult_assoc, Rinv_l; lra).
    unfold into, Rmax, Rmin. repeat destruct Rle_dec; lra. }
  assert (POS : forall t, t < tc -> 0 < hvapR pow tc (Hvap, o) t).
  { intros t T. rewrite V. specialize (X1 t T). rewrite PW by lra.
    apply Rmult_lt_0_compat; [apply Rmult_lt_0_compat; [assumption|apply exp_pos]|]. apply exp_pos. }
  assert (ZER : forall t, tc <= t -> hvapR pow tc (Hvap, o) t = 0).
  { intros t T. rewrite V, (X2 t T). replace (1 - 1) with 0 by lra. rewrite P0 by assumption. ring. }
  split; [exact POS|]. split; [exact ZER|].
  intros BC t t' TT. destruct (Rle_lt_dec tc t') as [T' | T'].
  - rewrite (ZER t' T'). destruct (Rle_lt_dec tc t) as [T | T].
    + rewrite (ZER t T). lra.
    + left. now apply POS.
  - rewrite !V.
    assert (M : into lo (t / tc) 1 <= into lo (t' / tc) 1).
    { assert (t / tc <= t' / tc) by (apply Rmult_le_compat_r; [left; now apply Rinv_0_lt_compat|exact TT]).
      unfold into, Rmax, Rmin. repeat destruct Rle_dec; lra. }
    pose proof (X1 t' T') as Y'. pose proof (into_in lo (t / tc) 1 L) as Z.
    set (x := into lo (t / tc) 1) in *. set (x' := into lo (t' / tc) 1) in *. clearbody x x'.
    rewrite !PW by lra. unfold Rpower. rewrite !Rmult_assoc, <- !exp_plus.
    apply Rmult_le_compat_l; [lra|].
    assert (E : - (bb * x') + c * ln (1 - x') <= - (bb * x) + c * ln (1 - x)).
    { assert (LN : ln (1 - x') <= ln (1 - x) - (x' - x)).
      { assert (R1 : ln ((1 - x') / (1 - x)) <= (1 - x') / (1 - x) - 1).
        { pose proof (exp_ineq1_le (ln ((1 - x') / (1 - x)))) as Q.
          rewrite exp_ln in Q by (apply Rdiv_lt_0_compat; lra). lra. }
        unfold Rdiv in R1. rewrite ln_mult in R1; [|lra|apply Rinv_0_lt_compat; lra].
        rewrite ln_Rinv in R1 by lra.
        assert ((1 - x') * / (1 - x) - 1 <= - (x' - x)).
        { apply (Rmult_le_reg_r (1 - x)); [lra|].
          replace (((1 - x') * / (1 - x) - 1) * (1 - x)) with (x - x') by (field; lra). nra. }
        lra. }
      nra. }
    destruct E as [E | E]; [left; now apply exp_increasing|right; now rewrite E].
Qed.
Print Assumptions C125_hvap.

(** Of the propellants it is a curve of the temperature itself, but it is looked up by
    the temperature over the critical one, so that it never changes. *)
Theorem C125_refuted : forall f, f = ft_NTO \/ f = ft_MMH \/ f = ft_HYDRAZINE ->
  In f defined /\ forall pow, exists b,
  build sqrt exp log10 pow (kmap ev (y_hvap f)) = Some b /\
  forall t, t <= (ev (y_tc f) : R) ->
  hvapR pow (ev (y_tc f)) b t = formula pow Linear (arg (y_hvap f)) (g_minx (arg (y_hvap f))) 0.
Proof.
  intros f F.
  assert (I : In f defined) by (destruct F as [F | [F | F]]; subst f; unfold defined; cbn [In]; tauto).
  split; [exact I|]. intro pow.
  assert (KH : fst (y_hvap f) = Linear) by (destruct F as [F | [F | F]]; subst f; reflexivity).
  assert (H : q_hv f = true) by (destruct F as [F | [F | F]]; subst f; vm_compute; reflexivity).
  assert (HP : proper Linear (arg (y_hvap f))).
  { assert (q_proper Linear (argq (y_hvap f)) = true /\ wfa (snd (y_hvap f)) = true) as [P W]
      by (destruct F as [F | [F | F]]; subst f; split; vm_compute; reflexivity).
    rewrite (arg_q _ W). now apply q_proper_R. }
  unfold q_hv in H. apply andb_prop in H as [H HH].
  apply andb_prop in H as [H HT]. apply andb_prop in H as [W WT].
  assert (TC : 0 < (ev (y_tc f) : R)).
  { rewrite <- evq_ev by assumption. rewrite <- Q2R_0. now apply qlt_R. }
  set (tc := ev (y_tc f) : R) in *. clearbody tc.
  pose proof (arg_q _ W) as AQ. unfold argq in AQ.
  destruct (y_hvap f) as [k gl]. cbn [fst snd] in *. subst k. cbv zeta in HH. apply qlt_R in HH.
  unfold build, kmap. cbn [fst snd]. fold (arg (Linear, gl)).
  assert (MX : 1 < g_minx (arg (Linear, gl))) by (rewrite AQ, <- Q2R_1; exact HH).
  change (amap ev gl) with (arg (Linear, gl)). set (g := arg (Linear, gl)) in *. clearbody g.
  unfold ctor. set (s := set_coefs fresh _ _ _ _ _ _).
  destruct (init sqrt exp log10 pow Linear s g) as [o e] eqn:IN.
  assert (e = false) as ->.
  { assert (AC : snd (initR pow Linear s g) = false).
    { apply (proj1 (proj2 (C121_accepts pow Linear s g)) eq_refl); [discriminate|exact HP]. }
    unfold initR in AC. rewrite IN in AC. exact AC. }
  exists (Linear, o). split; [reflexivity|]. intros t T.
  unfold hvapR, get_hvap, fget. cbn [fst snd ndiv n0 RNum].
  pose proof (C119_get pow Linear s o g IN (t / tc) 0) as G. unfold getR in G.
  etransitivity; [exact G|]. cbn [formula two_vars]. f_equal. f_equal.
  assert (t / tc <= 1) by (apply (Rmult_le_reg_r tc); [exact TC|]; unfold Rdiv; rewrite Rmult_assoc, Rinv_l; lra).
  destruct HP as (_ & L & _). unfold into, Rmax, Rmin. repeat destruct Rle_dec; lra.
Qed.
Print Assumptions C125_refuted.

(** The hypotheses are met: carbon monoxide boils, and there is such a power. *)
Example C123_example : In ft_CO defined /\
  exists ps, built (y_psat ft_CO) = Some ps /\
  let tc := (ev (y_tc ft_CO) : R) in
  Reps <= tc / (3 / 2) /\ in_range (y_psat ft_CO) (tc / (tc / (3 / 2))) /\
  in_range (y_tsat ft_CO) (psatR tc ps (tc / (3 / 2))).
Proof.
  assert (I : In ft_CO defined) by (unfold defined; cbn [In]; auto). split; [exact I|].
  assert (J : built (y_psat ft_CO) <> None) by (apply (C123_constructs _ I); cbn; tauto).
  destruct (built (y_psat ft_CO)) as [ps|] eqn:B; [|easy]. exists ps. split; [reflexivity|].
  set (tc := ev (y_tc ft_CO) : R). cbv zeta.
  assert (TC : tc = 13286 / 100) by reflexivity.
  pose proof Reps_small as E1. split; [lra|].
  assert (RR : tc / (tc / (3 / 2)) = 3 / 2) by (rewrite TC; field). rewrite RR.
  assert (IR : in_range (y_psat ft_CO) (3 / 2)).
  { unfold in_range, inside, arg. cbn. unfold Rdec. cbn. lra. }
  split; [exact IR|]. apply built_acc in B as [E A]. rewrite E.
  unfold psatR, get_psat. cbn [fst].
  assert (MX : nmax (tc / (3 / 2)) neps = tc / (3 / 2)).
  { unfold nmax. cbn [nlt neps RNum]. rcases; lra. }
  rewrite MX. cbn [ndiv n0 ndec RNum]. rewrite RR.
  change (fst (y_psat ft_CO)) with Quadratic in *.
  rewrite (acc_get Rpower _ _ _ _ 0 A IR) by discriminate.
  replace (Rdec 10 0) with 10 by reflexivity.
  set (v := formula Rpower Quadratic (arg (y_psat ft_CO)) (3 / 2) 0).
  assert (V : 2 <= v <= 3) by (unfold v, arg; cbn; unfold Rdec; cbn; lra). clearbody v.
  assert (P2 : Rpower 10 2 = 100) by (change 2 with (INR 2); rewrite Rpower_pow by lra; simpl; lra).
  assert (P3 : Rpower 10 3 = 1000) by (replace 3 with (INR 3) by (simpl; lra); rewrite Rpower_pow by lra; simpl; lra).
  assert (100 <= Rpower 10 v <= 1000).
  { rewrite <- P2, <- P3. split; apply Rle_Rpower; lra. }
  unfold in_range, inside, arg. cbn. unfold Rdec. cbn. lra.
Qed.
Example C125_example : exists pow, is_pow pow.
Proof.
  exists (fun x y => if Req_EM_T x 0 then 0 else Rpower x y). split.
  - intros x y H. destruct (Req_EM_T x 0); [lra|reflexivity].
  - intros y _. destruct (Req_EM_T 0 0); [reflexivity|lra].
Qed.
