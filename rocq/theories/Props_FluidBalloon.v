(** C196, C197: balloons, and the liquid end of a separator. *)
From Coq Require Import Floats.
From Coq Require Import Reals Lra Lia List Arith Bool ZArith.
From Verif Require Import Num Ord MathUtil Props_Math Spec_Valve Props_Valve Props_Thermal FluidFlow Props_FluidFlow FluidSorb Props_FluidSorb Props_FluidSource Props_FluidBed Props_FluidMix FluidTank Props_FluidTank.
Import ListNotations.
Local Open Scope R_scope.

Lemma bal_minR : 0 < (bal_min : R) < 1 / 1000000.
Proof. unfold bal_min. rnum. unfold Rdec. cbn [Z.leb Z.compare]. change (10 ^ 12)%Z with 1000000000000%Z. lra. Qed.
(** ** C196: volume *)
Theorem C196_accepted : forall k vmax : R, bal_valid k vmax = true <-> feps <= k /\ bal_min + feps <= vmax.
Proof.
  intros. unfold bal_valid. change (k <~ feps) with (Rltb k feps). change (vmax <~ bal_min +~ feps) with (Rltb vmax (bal_min + feps)).
  rewrite andb_true_iff, !negb_true_iff. destruct (Rltb_spec k feps), (Rltb_spec vmax (bal_min + feps)); split; intros [? ?]; try discriminate; split; try reflexivity; lra.
Qed.
Print Assumptions C196_accepted.
Theorem C196_volume : forall k p1 vmax : R, bal_min <= vmax -> 0 <= k ->
  (forall p, bal_volume k p1 vmax p = within bal_min (k * (p - p1)) vmax) /\
  (forall p, bal_min <= bal_volume k p1 vmax p <= vmax) /\
  (forall p q, p <= q -> bal_volume k p1 vmax p <= bal_volume k p1 vmax q) /\
  (forall p, bal_min <= k * (p - p1) <= vmax -> bal_volume k p1 vmax p = k * (p - p1)).
Proof.
  intros k p1 vmax V K.
  assert (E : forall p, bal_volume k p1 vmax p = within bal_min (k * (p - p1)) vmax) by (intro p; unfold bal_volume; apply limit_within; exact V).
  split; [exact E|]. split; [intro p; rewrite E; unfold within; mm|]. split.
  - intros p q H. rewrite !E. assert (k * (p - p1) <= k * (q - p1)) by (apply Rmult_le_compat_l; lra). unfold within. mm.
  - intros p H. rewrite E. unfold within. mm.
Qed.
Print Assumptions C196_volume.
Definition bal_of (v vmax i : R) : Prop := v = bal_min + i * (vmax - bal_min).
Theorem C196_inflation : forall stuck (k p1 vmax p v infl : R), bal_min < vmax -> 0 <= k -> 0 <= infl <= 1 ->
  let '(vol, i, st) := bal_update stuck k p1 vmax p v infl in
  0 <= i <= 1 /\ bal_min <= vol <= vmax /\ bal_of vol vmax i /\
  (stuck = true -> i = infl) /\ (stuck = false -> vol = within bal_min (k * (p - p1)) vmax) /\
  (st = DEFLATED <-> i = 0) /\ (st = INFLATED <-> i = 1) /\
  (st = INFLATING <-> 0 < i < 1 /\ v + feps < vol) /\ (st = DEFLATING <-> 0 < i < 1 /\ vol < v - feps) /\
  (st = PARTIALLY_INFLATED <-> 0 < i < 1 /\ Rabs (vol - v) <= feps).
Proof.
  intros stuck k p1 vmax p v infl V K I. unfold bal_update. pose proof core_feps as F0.
  assert (Q : forall vol i, 0 <= i <= 1 -> bal_min <= vol <= vmax -> bal_of vol vmax i ->
    let st := if bal_min ==~ vol then DEFLATED else if vmax ==~ vol then INFLATED
              else if v +~ feps <~ vol then INFLATING else if vol <~ v -~ feps then DEFLATING else PARTIALLY_INFLATED in
    (st = DEFLATED <-> i = 0) /\ (st = INFLATED <-> i = 1) /\
    (st = INFLATING <-> 0 < i < 1 /\ v + feps < vol) /\ (st = DEFLATING <-> 0 < i < 1 /\ vol < v - feps) /\
    (st = PARTIALLY_INFLATED <-> 0 < i < 1 /\ Rabs (vol - v) <= feps)).
  { intros vol i A B C. cbv zeta.
  unfold bal_of in C.
  change (bal_min ==~ vol) with (Reqb bal_min vol). change (vmax ==~ vol) with (Reqb vmax vol).
  change (v +~ feps <~ vol) with (Rltb (v + feps) vol). change (vol <~ v -~ feps) with (Rltb vol (v - feps)).
  assert (Z0 : bal_min = vol <-> i = 0) by (split; intro H; [apply Rmult_eq_reg_r with (vmax - bal_min); lra|rewrite H in C; lra]).
  assert (Z1 : vmax = vol <-> i = 1) by (split; intro H; [apply Rmult_eq_reg_r with (vmax - bal_min); lra|rewrite H in C; lra]).
  assert (IN : bal_min <> vol -> vmax <> vol -> 0 < i < 1).
  { intros H1 H2. split; [destruct (Req_dec i 0); [exfalso; apply H1, Z0; assumption|lra]|destruct (Req_dec i 1); [exfalso; apply H2, Z1; assumption|lra]]. }
  assert (AB : Rabs (vol - v) <= feps <-> v - feps <= vol <= v + feps) by (split; intro H; [unfold Rabs in H; destruct (Rcase_abs (vol - v)); lra|unfold Rabs; destruct (Rcase_abs (vol - v)); lra]).
  rewrite AB. clear AB. clear C.
  assert (N01 : forall H : i = 0, ~ i = 1) by (intros; lra).
  destruct (Reqb_spec bal_min vol) as [H|H].
  { apply Z0 in H. repeat split; intros; try discriminate; try tauto; try lra; exfalso; lra. }
  destruct (Reqb_spec vmax vol) as [H'|H'].
  { apply Z1 in H'. repeat split; intros; try discriminate; try tauto; try lra; exfalso; lra. }
  pose proof (IN H H') as (J1 & J2). clear Z0 Z1 IN.
  destruct (Rltb_spec (v + feps) vol); [|destruct (Rltb_spec vol (v - feps))]; repeat split; intros; try discriminate; try tauto; try lra; exfalso; lra. }
  destruct stuck; cbv zeta.
  - change (infl *~ (vmax -~ bal_min) +~ bal_min) with (infl * (vmax - bal_min) + bal_min).
    assert (B : bal_min <= infl * (vmax - bal_min) + bal_min <= vmax).
    { assert (0 <= infl * (vmax - bal_min)) by (apply Rmult_le_pos; lra).
      assert (infl * (vmax - bal_min) <= 1 * (vmax - bal_min)) by (apply Rmult_le_compat_r; lra). lra. }
    assert (C : bal_of (infl * (vmax - bal_min) + bal_min) vmax infl) by (unfold bal_of; ring).
    split; [exact I|]. split; [exact B|]. split; [exact C|]. split; [reflexivity|]. split; [discriminate|]. apply Q; assumption.
  - destruct (C196_volume k p1 vmax ltac:(lra) K) as (A & B & _). specialize (A p). specialize (B p).
    set (x := bal_volume k p1 vmax p) in *. clearbody x. change ((x -~ bal_min) /~ (vmax -~ bal_min)) with ((x - bal_min) / (vmax - bal_min)).
    assert (J : (x - bal_min) / (vmax - bal_min) * (vmax - bal_min) = x - bal_min) by (field; lra).
    assert (I2 : 0 <= (x - bal_min) / (vmax - bal_min) <= 1) by (split; [apply Rmult_le_pos; [lra|left; apply Rinv_0_lt_compat; lra]|apply Rmult_le_reg_r with (vmax - bal_min); lra]).
    assert (C : bal_of x vmax ((x - bal_min) / (vmax - bal_min))) by (unfold bal_of; rewrite J; ring).
    split; [exact I2|]. split; [exact B|]. split; [exact C|]. split; [discriminate|]. split; [intros _; exact A|]. apply Q; assumption.
Qed.
Print Assumptions C196_inflation.
(** A volume asked for is given, at the pressure that keeps it. *)
Theorem C196_edit : forall (k p1 vmax t : R) ev (e : @tped R), bal_min <= vmax -> 0 < k ->
  let s := bal_edit k p1 vmax t ev e in
  (editing e -> fst s = e /\ snd s = Some (within bal_min (k * (asked e - p1)) vmax)) /\
  (~ editing e -> forall x, ev = Some x ->
     tp_tp (fst s) = true /\ tp_temp (fst s) = t /\ snd s = Some (within bal_min x vmax) /\ bal_volume k p1 vmax (tp_press (fst s)) = within bal_min x vmax) /\
  (~ editing e -> ev = None -> s = (e, None)).
Proof.
  intros k p1 vmax t ev e V K. unfold bal_edit. cbv zeta. split; [|split].
  - intro ED. assert (E1 : tp_tp e || tp_tpp e = true) by (destruct ED as [-> | ->]; [reflexivity|apply orb_true_r]). rewrite E1. cbn [fst snd]. split; [reflexivity|].
    assert (TG : edit_target e = asked e) by (unfold edit_target, asked; rewrite fold_add; destruct (tp_tp e) eqn:Y; [reflexivity|]; destruct ED as [Z|Z]; [congruence|rewrite Z; reflexivity]).
    rewrite TG. destruct (C196_volume k p1 vmax V ltac:(lra)) as (A & B & _). rewrite limit_within by exact V. rewrite A. f_equal. unfold within. mm.
  - intros NE x ->. assert (A : tp_tp e || tp_tpp e = false) by (unfold editing in NE; destruct (tp_tp e), (tp_tpp e); tauto). rewrite A. cbn [fst snd tp_tp tp_temp tp_press].
    split; [reflexivity|]. split; [reflexivity|]. change (x <~ bal_min) with (Rltb x bal_min). change (vmax <~ x) with (Rltb vmax x). split.
    + f_equal. destruct (Rltb_spec x bal_min); [unfold within; mm|]. destruct (Rltb_spec vmax x); unfold within; mm.
    + rewrite limit_within by exact V. destruct (C196_volume k p1 vmax V ltac:(lra)) as (B & _). rewrite B.
      replace (k * (within bal_min x vmax /~ k +~ p1 - p1)) with (within bal_min x vmax) by (rnum; field; lra). unfold within. mm.
  - intros NE ->. assert (A : tp_tp e || tp_tpp e = false) by (unfold editing in NE; destruct (tp_tp e), (tp_tpp e); tauto). rewrite A. reflexivity.
Qed.
Print Assumptions C196_edit.
(** An edit to no pressure is replaced by the present pressure, but the balloon has been emptied. *)
Theorem C196_zero_refuted : exists (k p1 vmax t p : R) (e : @tped R), bal_valid k vmax = true /\ editing e /\
  let s := bal_edit k p1 vmax t None e in
  snd s = Some bal_min /\ tp_press (fst (tank_edit t p [p] 0 1 (fst s))) = p /\ bal_volume k p1 vmax p = vmax.
Proof.
  pose proof core_feps as F0. pose proof bal_minR as M. exists 1, 0, 10, 300, 20, (mktped false true false 300 0 [20] false false).
  assert (ED : editing (mktped false true false 300 0 [20] false false)) by (left; reflexivity).
  split; [apply C196_accepted; lra|]. split; [exact ED|]. cbv zeta.
  destruct (C196_edit 1 0 10 300 None (mktped false true false 300 0 [20] false false) ltac:(lra) ltac:(lra)) as (A & _). destruct (A ED) as [A1 A2].
  rewrite A1, A2. split; [|split].
  - f_equal. unfold asked. cbn [tp_tp tp_press]. unfold within. mm.
  - destruct (C195_edit 300 20 [20] 0 1 (mktped false true false 300 0 [20] false false) ED) as (_ & B & _). rewrite B.
    unfold aim_p, asked. cbn [tp_tp tp_press]. destruct (Rlt_dec 0 feps); [unfold total; cbn; lra|lra].
  - destruct (C196_volume 1 0 10 ltac:(lra) ltac:(lra)) as (B & _). rewrite B. unfold within. mm.
Qed.
Print Assumptions C196_zero_refuted.
(** ** C197: pressure of a balloon *)
Lemma four : (ndec 4 0 : R) = 4. Proof. rnum. unfold Rdec. cbn. lra. Qed.
(** A partly inflated balloon is corrected to the pressure at which, with the volume it then has,
    its content obeys the gas law; that is between the present pressure and the one at the present
    volume. *)
Theorem C197_correction : forall infl k p v nrt pc, 0 < infl < 1 -> 0 < k -> 0 < p -> 0 < v -> 0 < nrt -> pc <> 0 ->
  let x := bal_pc sqrt false infl k p v nrt pc in let e := nrt / v - p in
  (p + x) * (v + k * x) = nrt /\ 0 < p + x /\ 0 < v + k * x /\ Rmin 0 e <= x <= Rmax 0 e.
Proof.
  intros infl k p v nrt pc I K P V NR PC. cbv zeta. unfold bal_pc. rewrite four, halfR.
  change (n0 <~ infl) with (Rltb 0 infl). change (infl <~ n1) with (Rltb infl 1). rewrite !Rltb_true by lra. cbn [negb andb]. cbv zeta.
  change (k *~ pc *~ pc) with (k * pc * pc). change (pc *~ (k *~ p +~ v)) with (pc * (k * p + v)). change (v *~ p -~ nrt) with (v * p - nrt).
  set (s := k * p + v). assert (S0 : 0 < s) by (unfold s; nra).
  change (pc * s *~ (pc * s) -~ 4 *~ (k * pc * pc) *~ (v * p - nrt)) with (pc * s * (pc * s) - 4 * (k * pc * pc) * (v * p - nrt)).
  set (h := (k * p - v) * (k * p - v) + 4 * k * nrt). assert (KN : 0 < k * nrt) by (apply Rmult_lt_0_compat; assumption).
  assert (H0 : 0 < h) by (unfold h; pose proof (Rle_0_sqr (k * p - v)) as Z; unfold Rsqr in Z; lra).
  assert (QE : pc * s * (pc * s) - 4 * (k * pc * pc) * (v * p - nrt) = pc * pc * h) by (unfold s, h; ring). rewrite QE.
  assert (PP : 0 < pc * pc) by nra. assert (A0 : 0 < k * pc * pc) by nra. assert (Q0 : 0 < pc * pc * h) by nra.
  change (nabs (k * pc * pc)) with (Rabs (k * pc * pc)). change (n0 <~ Rabs (k * pc * pc)) with (Rltb 0 (Rabs (k * pc * pc))).
  change (n0 <~ pc * pc * h) with (Rltb 0 (pc * pc * h)). rewrite (Rabs_right (k * pc * pc)) by lra. rewrite !Rltb_true by assumption. cbn [andb].
  assert (SQ : sqrt (pc * pc * h) = Rabs pc * sqrt h).
  { rewrite sqrt_mult by lra. f_equal. rewrite <- (sqrt_Rsqr_abs pc). reflexivity. }
  rewrite SQ. set (w := sqrt h) in *. assert (W : w * w = h) by (apply sqrt_sqrt; lra). assert (W0 : 0 < w) by (apply sqrt_lt_R0; lra). clearbody w.
  set (xp := (w - s) / (2 * k)). set (xm := - (w + s) / (2 * k)).
  assert (RES : forall sp sm : R, sp = (- (pc * s) + Rabs pc * w) * (1 / 2) / (k * pc * pc) -> sm = (- (pc * s) - Rabs pc * w) * (1 / 2) / (k * pc * pc) ->
     (if Rltb (Rabs sp) (Rabs sm) then sp else sm) * pc = xp).
  { intros sp sm -> ->.
    assert (LT : Rabs xp < Rabs xm).
    { unfold xp, xm. unfold Rdiv. rewrite !Rabs_mult. apply Rmult_lt_compat_r; [apply Rabs_pos_lt; apply Rinv_neq_0_compat; lra|].
      rewrite (Rabs_left (- (w + s))) by lra. unfold Rabs. destruct (Rcase_abs (w - s)); lra. }
    assert (AP : 0 < Rabs pc) by (apply Rabs_pos_lt; exact PC).
    destruct (Rlt_dec 0 pc) as [Z|Z].
    - rewrite (Rabs_right pc) by lra.
      replace ((- (pc * s) + pc * w) * (1 / 2) / (k * pc * pc)) with (xp / pc) by (unfold xp; field; lra).
      replace ((- (pc * s) - pc * w) * (1 / 2) / (k * pc * pc)) with (xm / pc) by (unfold xm; field; lra).
      rewrite Rltb_true; [field; lra|]. unfold Rdiv. rewrite !Rabs_mult. apply Rmult_lt_compat_r; [apply Rabs_pos_lt; apply Rinv_neq_0_compat; lra|exact LT].
    - rewrite (Rabs_left pc) by lra.
      replace ((- (pc * s) + - pc * w) * (1 / 2) / (k * pc * pc)) with (xm / pc) by (unfold xm; field; lra).
      replace ((- (pc * s) - - pc * w) * (1 / 2) / (k * pc * pc)) with (xp / pc) by (unfold xp; field; lra).
      destruct (Rltb_spec (Rabs (xm / pc)) (Rabs (xp / pc))) as [Y|Y]; [|field; lra].
      exfalso. unfold Rdiv in Y. rewrite !Rabs_mult in Y. apply Rmult_lt_reg_r in Y; [lra|]. apply Rabs_pos_lt; apply Rinv_neq_0_compat; lra. }
  match goal with |- context [(if nabs ?a <~ nabs ?b then ?a else ?b) *~ pc] =>
    assert (R2 : (if nabs a <~ nabs b then a else b) *~ pc = xp) by (apply (RES a b); reflexivity); rewrite R2; clear R2 end.
  clear RES SQ QE Q0 A0 PP xm. set (x := xp).
  assert (X : 2 * k * x = w - s) by (unfold x, xp; field; lra). clearbody x. clear xp.
  assert (E1 : (p + x) * (v + k * x) = nrt).
  { apply Rmult_eq_reg_l with (4 * k); [|lra]. replace (4 * k * ((p + x) * (v + k * x))) with ((2 * k * p + 2 * k * x) * (2 * v + 2 * k * x)) by ring. rewrite X.
    replace ((2 * k * p + (w - s)) * (2 * v + (w - s))) with (w * w - (k * p - v) * (k * p - v)) by (unfold s; ring). rewrite W. unfold h. ring. }
  assert (HW : (k * p - v) * (k * p - v) < w * w) by (rewrite W; unfold h; lra).
  assert (WA : Rabs (k * p - v) < w). { destruct (Rlt_dec (Rabs (k * p - v)) w) as [Z|Z]; [exact Z|]. exfalso. assert (Y : w <= Rabs (k * p - v)) by lra.
    assert (w * w <= Rabs (k * p - v) * Rabs (k * p - v)) by (apply Rmult_le_compat; lra). rewrite <- Rabs_mult in H. rewrite Rabs_right in H; [lra|]. pose proof (Rle_0_sqr (k * p - v)) as Z2; unfold Rsqr in Z2; lra. }
  assert (E2 : 0 < p + x) by (unfold s in X; unfold Rabs in WA; destruct (Rcase_abs (k * p - v)); nra).
  assert (E3 : 0 < v + k * x) by (unfold s in X; unfold Rabs in WA; destruct (Rcase_abs (k * p - v)); nra).
  split; [exact E1|]. split; [exact E2|]. split; [exact E3|]. clear X HW WA W W0 w H0 h S0 s.
  assert (EV : nrt / v * v = nrt) by (field; lra). set (y := nrt / v) in *. clearbody y.
  destruct (Rle_dec 0 x) as [Z|Z].
  - assert ((p + x) * v <= y * v) by nra. assert (p + x <= y) by (apply Rmult_le_reg_r with v; lra). mm.
  - assert (y * v <= (p + x) * v) by nra. assert (y <= p + x) by (apply Rmult_le_reg_r with v; lra). mm.
Qed.
Print Assumptions C197_correction.
Theorem C197_rigid : forall stuck infl k p v nrt pc, stuck = true \/ infl <= 0 \/ 1 <= infl -> bal_pc sqrt stuck infl k p v nrt pc = pc.
Proof.
  intros stuck infl k p v nrt pc H. unfold bal_pc. change (n0 <~ infl) with (Rltb 0 infl). change (infl <~ n1) with (Rltb infl 1).
  assert (E : Rltb 0 infl && Rltb infl 1 && negb stuck = false).
  { destruct (Rltb_spec 0 infl), (Rltb_spec infl 1), stuck; try reflexivity. destruct H as [?|[?|?]]; [discriminate|lra|lra]. }
  rewrite E. cbv zeta. rnum. ring.
Qed.
Print Assumptions C197_rigid.
Theorem C197_none : forall stuck infl k p v nrt, bal_pc sqrt stuck infl k p v nrt 0 = 0.
Proof. intros. unfold bal_pc. cbv zeta. rnum. apply Rmult_0_r. Qed.
Print Assumptions C197_none.
(** A rate edit of a flexible balloon carries the gas for the volume it gains: with the masses the
    flow is corrected too, so that their sum stays as it was. *)
Theorem C197_rate_edit : forall dt flow w cap k (gs : list (option R * R)), Reps < Rabs flow -> dt <> 0 ->
  let s := bal_correct dt flow w cap k gs in let dv := - dt * flow / w / cap * k in
  snd s = map (fun g => snd g + match fst g with Some rho => rho * dv | None => 0 end) gs /\
  fst s * dt + total (snd s) = flow * dt + total (map snd gs).
Proof.
  intros dt flow w cap k gs F D s dv. unfold s, bal_correct. change (neps <~ nabs flow) with (Rltb Reps (Rabs flow)). rewrite (Rltb_true _ _ F). cbv zeta. cbn [fst snd].
  change (nopp dt *~ flow /~ w /~ cap *~ k) with dv. clearbody dv. split.
  - apply map_ext. intros [[rho|] x]; cbn [fst snd]; rnum; ring.
  - clear F s. revert flow. induction gs as [|[[rho|] x] gs IH]; intro flow; cbn [fold_left map fst snd].
    + reflexivity.
    + unfold total in *. cbn [fold_right]. change (flow -~ rho *~ dv /~ dt) with (flow - rho * dv / dt). specialize (IH (flow - rho * dv / dt)).
      set (f := fold_left _ gs _) in *. clearbody f. change (rho *~ dv +~ x) with (rho * dv + x).
      assert (Z : rho * dv / dt * dt = rho * dv) by (field; exact D). lra.
    + unfold total in *. cbn [fold_right]. specialize (IH flow). lra.
Qed.
Print Assumptions C197_rate_edit.
Theorem C197_capacity : forall stuck (v vmax k rho w : R), w <> 0 ->
  (stuck = true \/ v = vmax -> bal_cap stuck v vmax k rho w = 0) /\ (stuck = false -> v <> vmax -> bal_cap stuck v vmax k rho w * w = k * rho).
Proof.
  intros stuck v vmax k rho w W. unfold bal_cap. change (v ==~ vmax) with (Reqb v vmax). destruct (Reqb_spec v vmax), stuck; cbn [orb]; split; intros; try reflexivity; try contradiction; try discriminate.
  - destruct H; [discriminate|contradiction].
  - rnum. field. exact W.
Qed.
Print Assumptions C197_capacity.
Theorem C197_source : forall p adm flow w dt cap : R, w <> 0 ->
  (Reps < dt -> bal_source p adm flow w dt cap = p * adm - flow / w + cap / dt) /\ (dt <= Reps -> bal_source p adm flow w dt cap = p * adm - flow / w).
Proof.
  intros p adm flow w dt cap W. unfold bal_source. change (neps <~ dt) with (Rltb Reps dt). cbv zeta. destruct (Rltb_spec Reps dt); split; intro; try lra; reflexivity.
Qed.
Print Assumptions C197_source.
Theorem C197_scale : forall (k : R) malf scale, Reps <= bal_k k malf scale /\
  (malf = false -> Reps <= k -> bal_k k malf scale = k) /\ (malf = true -> Reps <= k * scale -> bal_k k malf scale = k * scale).
Proof. intros k [] scale; unfold bal_k; rewrite nmaxR; change (neps : R) with Reps; change (k *~ scale) with (k * scale); (split; [mm|]); split; intros; try discriminate; mm. Qed.
Print Assumptions C197_scale.
(** The liquid end of a separator. *)
Theorem C197_separator : forall port node last, sep_port port node last = true <-> (port = 1%nat -> node <> last) /\ (port = 0%nat -> node = last).
Proof.
  intros port node last. unfold sep_port. destruct (Nat.eqb_spec port 1), (Nat.eqb_spec port 0), (Nat.eqb_spec node last); cbn [andb negb]; split; intro; try discriminate; try reflexivity; try lia; split; intros; try lia; exfalso; lia.
Qed.
Print Assumptions C197_separator.
(** A balloon of 1 m3 at 100 kPa holding gas for 150 kPa and 0.01 m3/kPa. *)
Example C197_balloon : let x := bal_pc sqrt false (1 / 2) (1 / 100) 100 1 150 50 in 0 <= x <= 50 /\ (100 + x) * (1 + 1 / 100 * x) = 150.
Proof.
  cbv zeta. destruct (C197_correction (1 / 2) (1 / 100) 100 1 150 50) as (A & _ & _ & B); try lra. split; [|exact A].
  rewrite Rmin_left, Rmax_right in B by lra. lra.
Qed.
Example C196_balloon : bal_valid (1 : R) 10 = true /\ bal_volume (1 : R) 0 10 5 = 5.
Proof.
  pose proof core_feps. pose proof bal_minR. split; [apply C196_accepted; lra|]. destruct (C196_volume 1 0 10 ltac:(lra) ltac:(lra)) as (_ & _ & _ & A). rewrite A; lra.
Qed.
