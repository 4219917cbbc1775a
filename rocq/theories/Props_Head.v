(** C210: pressure heads of fluid columns; the centrifugal pump of C208. *)
From Coq Require Import Floats.
From Coq Require Import Reals Lra Lia List Arith Bool ZArith.
From Verif Require Import Num Ord MathUtil Props_Math Spec_Valve Props_Valve Dyn FluidFlow FluidSources FluidFan Props_Detector Props_FluidFan.
Import ListNotations.
Local Open Scope R_scope.

Definition dotR (a b : v3 R) : R := v_0 a * v_0 b + v_1 a * v_1 b + v_2 a * v_2 b.
Lemma kiloR : (ndec 1 (-3) : R) = 1 / 1000.
Proof. cbn -[Rdec]. unfold Rdec. cbn. lra. Qed.
Definition density (l : head_link R) : R := match l with HPot x y => Rmin x y | HAcc x _ => x end.
(** How much of the column counts: an accumulator's is as long as its bellows are extended. *)
Definition part (l : head_link R) : R := match l with HPot _ _ => 1 | HAcc _ pos => pos end.
(** The acceleration in the structure's frame. *)
Definition frame (h : head_cfg R) (a : v3 R) : v3 R :=
  match h_dcm h with
  | None => a
  | Some (M9 a0 a1 a2 b0 b1 b2 c0 c1 c2) =>
      if h_trn h then V3 (a0 * v_0 a + b0 * v_1 a + c0 * v_2 a) (a1 * v_0 a + b1 * v_1 a + c1 * v_2 a) (a2 * v_0 a + b2 * v_1 a + c2 * v_2 a)
      else V3 (a0 * v_0 a + a1 * v_1 a + a2 * v_2 a) (b0 * v_0 a + b1 * v_1 a + b2 * v_2 a) (c0 * v_0 a + c1 * v_1 a + c2 * v_2 a)
  end.
Lemma head_min : forall x y : R, nmin x y = Rmin x y.
Proof. intros x y. unfold nmin, Rmin. cbn [nlt RNum]. destruct (Rltb_spec y x), (Rle_dec x y); lra. Qed.
(** The head is density times the component of the acceleration along the column, in kPa. *)
Theorem C210_head : forall h l a,
  head h l a = density l * part l * (if h_rev h then -1 else 1) * dotR (frame h a) (h_col h) / 1000.
Proof.
  intros h l a. unfold head. rewrite kiloR. unfold head_accel, frame.
  destruct h as [[c0 c1 c2] rev dcm trn], l as [x y|x pos], a as [a0 a1 a2]; cbn [h_rev h_dcm h_col h_trn density part]; rewrite ?head_min;
  destruct dcm as [[m0 m1 m2 m3 m4 m5 m6 m7 m8]|], rev, trn;
  unfold dotR, dot3, mulMV, mulMtV, scaleV; cbn [v_0 v_1 v_2 m_0 m_1 m_2 m_3 m_4 m_5 m_6 m_7 m_8 nadd nmul nopp n0 n1 RNum]; field.
Qed.
(** Of a potential it is the one of the lighter end, so a column with gas at one end has none. *)
Theorem C210_lighter : forall h x y a, 0 <= x -> 0 <= y -> x = 0 \/ y = 0 -> head h (HPot x y) a = 0.
Proof.
  intros h x y a X Y Z. rewrite C210_head. cbn [density]. replace (Rmin x y) with 0; [field|].
  destruct Z as [-> | ->]; symmetry; [apply Rmin_left|apply Rmin_right]; assumption.
Qed.
(** Turning the column around, reversing the acceleration's sense or its sign reverse it. *)
Theorem C210_reverse : forall col rev dcm trn l a,
  head (mkhead col (negb rev) dcm trn) l a = - head (mkhead col rev dcm trn) l a /\
  head (mkhead (V3 (- v_0 col) (- v_1 col) (- v_2 col)) rev dcm trn) l a = - head (mkhead col rev dcm trn) l a.
Proof.
  intros col rev dcm trn l a. rewrite !C210_head. cbn [h_rev h_col]. unfold frame. cbn [h_dcm h_trn].
  split; [destruct rev; cbn [negb]; field|unfold dotR; cbn [v_0 v_1 v_2]; field].
Qed.
(** It adds over accelerations and over columns. *)
Theorem C210_adds : forall h l a b,
  head h l (V3 (v_0 a + v_0 b) (v_1 a + v_1 b) (v_2 a + v_2 b)) = head h l a + head h l b.
Proof.
  intros h l a b. rewrite !C210_head. unfold frame. destruct (h_dcm h) as [[m0 m1 m2 m3 m4 m5 m6 m7 m8]|], (h_trn h); unfold dotR; cbn [v_0 v_1 v_2]; field.
Qed.
Theorem C210_columns : forall (c d : v3 R) rev dcm trn l a,
  head (mkhead (V3 (v_0 c + v_0 d) (v_1 c + v_1 d) (v_2 c + v_2 d)) rev dcm trn) l a =
  head (mkhead c rev dcm trn) l a + head (mkhead d rev dcm trn) l a.
Proof. intros. rewrite !C210_head. cbn [h_rev h_col]. unfold frame. cbn [h_dcm h_trn]. unfold dotR. cbn [v_0 v_1 v_2]. field. Qed.
(** The transposed matrix turns the acceleration as the matrix turns the column. *)
Theorem C210_transpose : forall (col : v3 R) rev (m : m9 R) (l : head_link R) (a : v3 R),
  head (mkhead col rev (Some m) true) l a = head (mkhead (mulMV m col) rev None false) l a.
Proof.
  intros col rev m l a. rewrite !C210_head. cbn [h_rev h_col]. unfold frame. cbn [h_dcm h_trn]. destruct m as [x0 x1 x2 x3 x4 x5 x6 x7 x8], col as [y0 y1 y2].
  unfold dotR, mulMV. cbn [v_0 v_1 v_2 m_0 m_1 m_2 m_3 m_4 m_5 m_6 m_7 m_8 nadd nmul n0 RNum]. field.
Qed.
(** No more than density times the lengths of acceleration and column. *)
Definition normR (a : v3 R) : R := sqrt (dotR a a).
Lemma dot_pos : forall a, 0 <= dotR a a.
Proof. intros [x y z]. unfold dotR. cbn. pose proof (Rle_0_sqr x). pose proof (Rle_0_sqr y). pose proof (Rle_0_sqr z). unfold Rsqr in *. lra. Qed.
Lemma cauchy : forall a b, Rabs (dotR a b) <= normR a * normR b.
Proof.
  intros a b. unfold normR. rewrite <- sqrt_mult by apply dot_pos. rewrite <- sqrt_Rsqr_abs. apply sqrt_le_1_alt. unfold Rsqr.
  destruct a as [x y z], b as [u v w]. unfold dotR. cbn [v_0 v_1 v_2].
  pose proof (Rle_0_sqr (x * v - y * u)). pose proof (Rle_0_sqr (x * w - z * u)). pose proof (Rle_0_sqr (y * w - z * v)). unfold Rsqr in *. lra.
Qed.
Theorem C210_bound : forall h l a, h_dcm h = None -> 0 <= density l -> 0 <= part l <= 1 ->
  Rabs (head h l a) <= density l * normR a * normR (h_col h) / 1000.
Proof.
  intros h l a D P Q. rewrite C210_head. unfold frame. rewrite D. pose proof (cauchy a (h_col h)) as K.
  replace (density l * part l * (if h_rev h then -1 else 1) * dotR a (h_col h) / 1000) with (density l / 1000 * (part l * ((if h_rev h then -1 else 1) * dotR a (h_col h)))) by field.
  rewrite Rabs_mult, (Rabs_right (density l / 1000)) by lra.
  replace (density l * normR a * normR (h_col h) / 1000) with (density l / 1000 * (normR a * normR (h_col h))) by field.
  apply Rmult_le_compat_l; [lra|]. rewrite Rabs_mult, (Rabs_right (part l)) by lra.
  assert (E : Rabs ((if h_rev h then -1 else 1) * dotR a (h_col h)) = Rabs (dotR a (h_col h))).
  { destruct (h_rev h); [|now rewrite Rmult_1_l]. replace (-1 * dotR a (h_col h)) with (- dotR a (h_col h)) by ring. apply Rabs_Ropp. }
  rewrite E. pose proof (Rabs_pos (dotR a (h_col h))) as RP.
  apply Rle_trans with (1 * Rabs (dotR a (h_col h))); [apply Rmult_le_compat_r; lra|lra].
Qed.
Example C210_example :
  head (mkhead (V3 0 0 10) false None false) (HPot 1000 998) (V3 0 0 (98 / 10)) = 97804 / 1000 /\
  head (mkhead (V3 0 0 10) true (Some (M9 0 0 1 0 1 0 (-1) 0 0)) true) (HAcc 1000 (1 / 2)) (V3 1 0 0) = -5.
Proof. split; rewrite C210_head; cbn [density part h_rev h_col frame h_dcm h_trn]; unfold dotR; cbn [v_0 v_1 v_2]; [rewrite Rmin_right by lra|]; lra. Qed.

(** ** The centrifugal pump *)
Section PUMP.
Variables (lag : list R -> R -> option (R * R)) (bre : list R -> R -> R -> option R).
(** A pump that does not and did not cavitate is the fan. *)
Theorem C208_pump : forall c f v motor rho vol p0 p1 psat noise dt s w,
  v_full v = false -> v_part v = false -> (v_auto v = false \/ psat <= p0) -> v_frac w = 0 -> 0 <= dt ->
  let '(s', o, g, w') := pump_update sqrt powerRZ lag bre c f v motor rho vol p0 p1 psat noise dt s w in
  fan_update sqrt powerRZ lag bre c f motor rho vol p0 p1 s = (s', o, g) /\ v_frac w' = 0.
Proof.
  intros c f v motor rho vol p0 p1 psat noise dt s w A B D W DT. unfold pump_update.
  destruct (fan_update _ _ _ _ _ _ _ _ _ _ _ _) as [[s' o] g]. unfold cav_update.
  assert (M : cav_mode v p0 psat = None).
  { unfold cav_mode. rewrite A, B. destruct D as [-> |D]; [reflexivity|]. apply ltN in D. rewrite D. now rewrite andb_false_r. }
  rewrite M, W, B. cbn [orb].
  assert (F : cav_frac sqrt false dt (nmax (v_dur w) neps) 0 = 0).
  { unfold cav_frac. rewrite within_limit. unfold within. rewrite fan_max. pose proof (Rmax_r (v_dur w) neps). pose proof neps_pos.
    set (d := Rmax _ _) in *. clearbody d. cbn [nadd nsub nmul ndiv n1 n0 RNum].
    match goal with |- Rmax 0 (Rmin ?u 1) = 0 => assert (U : u <= 0) end.
    { match goal with |- 0 - ?u <= 0 => assert (0 <= u); [|lra] end.
      apply Rmult_le_pos; [|left; apply Rinv_0_lt_compat; lra]. apply Rmult_le_pos; [|exact DT].
      apply Rmult_le_pos; [cbn [ndec RNum]; unfold Rdec; cbn; lra|apply sqrt_pos]. }
    rewrite Rmin_left by lra. apply Rmax_left. exact U. }
  cbv zeta. rewrite F.
  assert (Z : ((n0 : R) <~ n0) = false) by (apply ltN; apply Rle_refl). rewrite Z. cbn [v_frac]. split; [|reflexivity].
  cbn [nmul nsub n1 RNum]. destruct s' as [i1 g1 q1 u1]. cbn [m_imp m_sys m_q m_p]. replace (u1 * (1 - 0)) with u1 by ring. reflexivity.
Qed.
End PUMP.
(** Not: the check valve of a pump is closed whenever the pump does not push against it; it is set
    by the pressure from before the cavitation. *)
Theorem C208_cavitated_check_refuted : exists lag bre c f v motor rho vol p0 p1 psat noise dt s w s' o g w',
  pump_update sqrt powerRZ lag bre c f v motor rho vol p0 p1 psat noise dt s w = (s', o, g, w') /\
  k_check c = true /\ m_p s' + p0 < p1 /\ o = 1 /\ 0 < g.
Proof.
  exists (fun _ _ => Some (0, 0)), no_brent, (cfg2 1 1 100 true), (mkfan [2; -1; 0; 0; 0; 0] 2 0 0 [0; 0; 0; 0]).
  exists (mkcav false 0 0 true 1 false 0 0), 100, 1000, 0, 0, 1, 0, 0, 1, (mkfst 100 1 0 2), (mkcavs 1 1 1).
  pose proof feps_pos as FP. pose proof fan_feps as [_ FE]. pose proof neps_pos as EP. pose proof Reps_small as ES.
  set (c := cfg2 1 1 100 true). set (f := mkfan _ _ _ _ _).
  assert (K : imp_speed c 100 100 = 100).
  { unfold imp_speed. assert (Q : (neps <~ k_drive c) = true) by (apply ltI; cbn [c cfg2 k_drive]; change (neps : R) with Reps; lra). rewrite Q. cbn [c cfg2 k_drive ndiv RNum]. field. }
  assert (RN : running (mkfst 100 1 0 2) 1000) by (split; cbn [m_imp]; lra).
  assert (S2 : exists g, source_pressure sqrt powerRZ (fun _ _ => Some (0, 0)) no_brent c f 1000 0 (mkfst 100 1 0 2) = mkfst 100 g 0 2).
  { rewrite src_on by exact RN. cbv zeta. cbn [m_imp m_sys m_q m_p c cfg2 k_rho k_speed k_gain f f_coef f_q].
    set (g := sys_filter _ _ _). exists g. clearbody g.
    assert (I : forall cs m, 0 <= m -> improve (fun _ _ => Some (0, 0)) no_brent cs 0 m = Some 0).
    { intros cs m M. unfold improve. assert (Q : (is_in_range n0 0 m && (nabs 0 <~ neps))%bool = true).
      { unfold is_in_range. rewrite !andb_true_iff. repeat split; [apply leI; apply Rle_refl|apply leI; exact M|apply ltI; cbn [nabs RNum]; rewrite Rabs_R0; exact EP]. }
      now rewrite Q. }
    rewrite I by lra. rewrite C208_curve, fan_max. f_equal.
    replace (1000 / 1000) with 1 by field. replace (100 / 100) with 1 by field.
    cbn [affinity affinity_from poly nmul RNum]. change (powerRZ 1 (2 - 0)) with (1 * (1 * 1)). rewrite Rmax_right; lra. }
  destruct S2 as [g S2].
  exists (mkfst 100 g 0 0), 1, 1, (mkcavs 2 1 1).
  split; [|split; [reflexivity|split; [cbn [m_p]; lra|split; [reflexivity|lra]]]].
  unfold pump_update, fan_update. cbn [m_imp m_sys m_q m_p]. rewrite K, S2. cbn [m_imp m_sys m_q m_p].
  assert (V : check_valve c 2 0 1 = 1).
  { unfold check_valve. assert (Q : (n0 <~ 2 +~ 0 -~ 1) = true) by (apply ltI; cbn; lra). now rewrite Q. }
  rewrite V. unfold cav_update, cav_mode. cbn [v_full v_part v_auto v_dur v_time v_frac v_fdur v_pamp orb].
  assert (D : nmax 1 neps = 1) by (rewrite fan_max; apply Rmax_left; change (neps : R) with Reps; lra). rewrite D.
  assert (F : cav_frac sqrt true 1 1 1 = 1).
  { unfold cav_frac. rewrite within_limit. unfold within.
    match goal with |- Rmax _ (Rmin ?u _) = _ => assert (U : 1 <= u) end.
    { cbn [nadd nmul ndiv RNum]. match goal with |- 1 <= 1 + ?u => assert (0 <= u); [|lra] end.
      unfold Rdiv. rewrite Rinv_1, !Rmult_1_r. apply Rmult_le_pos; [cbn [ndec RNum]; unfold Rdec; cbn; lra|apply sqrt_pos]. }
    cbn [n1 n0 RNum] in *. rewrite Rmin_right by exact U. apply Rmax_right. lra. }
  rewrite F. cbv zeta. 
  match goal with |- context [n0 <~ ?x] => assert (Z : (n0 <~ x) = false) by (apply ltN; cbn [nmul n0 RNum]; rewrite Rmult_0_l; apply Rle_refl) end.
  rewrite Z. cbn [m_imp m_sys m_q m_p nmul nsub nadd n1 RNum c cfg2 k_cond].
  replace (2 * (1 - 1)) with 0 by ring. replace (1 * 1) with 1 by ring. replace (1 + 1) with 2 by ring. reflexivity.
Qed.

Print Assumptions C210_head.
Print Assumptions C210_lighter.
Print Assumptions C210_reverse.
Print Assumptions C210_adds.
Print Assumptions C210_columns.
Print Assumptions C210_transpose.
Print Assumptions C210_bound.
Print Assumptions C208_pump.
Print Assumptions C208_cavitated_check_refuted.
