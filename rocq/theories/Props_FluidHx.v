(** C165, C166: heat exchangers and their heat transfer coefficients. *)
From Coq Require Import Floats.
From Coq Require Import Reals Lra Lia List Arith Bool ZArith.
From Verif Require Import Num Ord MathUtil Props_Math Spec_Valve Props_Valve Props_Thermal FluidFlow Props_FluidFlow FluidHx.
Import ListNotations.
Local Open Scope R_scope.

Lemma hx_feps : 0 < (feps : R) < 1 / 10.
Proof.
  unfold feps. rnum. unfold Rdec. cbn [Z.leb Z.compare]. split; [apply Rdiv_lt_0_compat; apply IZR_lt; reflexivity|].
  apply (Rmult_lt_reg_r (IZR (10 ^ 23))); [apply IZR_lt; reflexivity|]. unfold Rdiv. rewrite Rmult_assoc, Rinv_l by (apply not_0_IZR; discriminate). rewrite Rmult_1_r.
  apply (Rmult_lt_reg_l 10); [lra|]. replace (10 * (1 * / 10 * IZR (10 ^ 23))) with (IZR (10 ^ 23)) by lra. rewrite <- mult_IZR. apply IZR_lt. reflexivity.
Qed.
Notation alongR := (along exp).
Notation segsR := (hx_segments exp).
Notation fluidR := (hx_fluid exp).

(** ** C165: coefficients *)
(** The default, times the segment's own degradation if that is on, else the exchanger's; never
    outside zero and the default. *)
Theorem C165_coefficient : forall b v (g : seg R), 0 <= g_def g ->
  let g' := seg_degrade b v g in
  g_htc g' = g_def g * within 0 (if g_malf g then g_malfv g else if b then v else 1) 1 /\
  0 <= g_htc g' <= g_def g /\ g_def g' = g_def g /\ g_wall g' = g_wall g /\ g_malf g' = g_malf g /\ g_malfv g' = g_malfv g.
Proof.
  intros b v g D. cbv zeta. unfold seg_degrade. cbn [g_htc g_def g_wall g_malf g_malfv]. rewrite limit_within by exact D.
  set (k := if g_malf g then g_malfv g else if b then v else 1).
  assert (E : (if g_malf g then g_def g *~ g_malfv g else if b then g_def g *~ v else g_def g) = g_def g * k).
  { unfold k. destruct (g_malf g); [reflexivity|]. destruct b; [reflexivity|]. lra. }
  rewrite E. clearbody k. change (n0 : R) with 0. clear E.
  assert (X : within 0 (g_def g * k) (g_def g) = g_def g * within 0 k 1).
  { unfold within. destruct (Rle_dec k 0) as [K|K]; [|destruct (Rle_dec k 1) as [K'|K']].
    - rewrite (Rmin_left k) by lra. rewrite (Rmax_left 0 k) by lra. pose proof (Rmult_le_pos (g_def g) (- k) D ltac:(lra)).
      rewrite Rmin_left by lra. rewrite Rmax_left by lra. ring.
    - rewrite (Rmin_left k) by lra. rewrite (Rmax_right 0 k) by lra. pose proof (Rmult_le_pos (g_def g) k D ltac:(lra)). pose proof (Rmult_le_pos (g_def g) (1 - k) D ltac:(lra)).
      rewrite Rmin_left by lra. rewrite Rmax_right by lra. reflexivity.
    - rewrite (Rmin_right k) by lra. rewrite (Rmax_right 0 1) by lra. pose proof (Rmult_le_pos (g_def g) (k - 1) D ltac:(lra)).
      rewrite Rmin_right by lra. rewrite Rmax_right by lra. ring. }
  rewrite X. split; [reflexivity|]. split; [|repeat split].
  assert (W : 0 <= within 0 k 1 <= 1). { unfold within. split; [apply Rmax_l|]. apply Rmax_lub; [lra|apply Rmin_r]. }
  pose proof (Rmult_le_pos _ _ D (proj1 W)). pose proof (Rmult_le_pos (g_def g) (1 - within 0 k 1) D ltac:(lra)). lra.
Qed.
(** Set up: at least one segment, a coefficient and a temperature; the segments share the coefficient. *)
Theorem C165_init : forall n htc wall over ovs,
  (hx_init n htc wall over ovs = None <-> n = 0%nat \/ htc < (feps : R) \/ wall < feps) /\
  (forall x : hx R, hx_init n htc wall over ovs = Some x -> length (x_segs x) = n /\ x_over x = over /\ x_malf x = false /\
     Forall (fun g => g_wall g = wall /\ g_htc g = g_def g /\ 0 <= g_def g /\ g_gain g = 0 /\ g_malf g = false) (x_segs x) /\
     (ovs = None -> total (map g_def (x_segs x)) = htc) /\
     (forall l i g, ovs = Some l -> (n <= length l)%nat -> nth_error (x_segs x) i = Some g -> 
        g_def g = if Rle_dec 0 (nth i l 0) then nth i l 0 else htc / INR n)).
Proof.
  intros n htc wall over ovs. pose proof hx_feps as FE. unfold hx_init. set (e := feps : R) in *. clearbody e.
  change (htc <~ e) with (Rltb htc e). change (wall <~ e) with (Rltb wall e).
  destruct (Nat.ltb_spec n 1) as [A|A]; cbn [orb].
  { split; [split; [intros _; left; lia|reflexivity]|discriminate]. }
  destruct (Rltb_spec htc e) as [B|B]; cbn [orb]; [split; [split; [intros _; right; left; exact B|reflexivity]|discriminate]|].
  destruct (Rltb_spec wall e) as [C|C]; cbn [orb]; [split; [split; [intros _; right; right; exact C|reflexivity]|discriminate]|].
  split; [split; [discriminate|intros [H|[H|H]]; [lia|lra|lra]]|].
  rewrite dec_nat. assert (PN : 0 < INR n) by (apply lt_0_INR; lia). set (share := htc /~ INR n).
  assert (SH : share = htc / INR n) by reflexivity. assert (SP : 0 <= share) by (rewrite SH; apply Rlt_le, Rdiv_lt_0_compat; lra). clearbody share.
  intros x H. injection H as <-. cbn [x_segs x_over x_malf].
  set (def := fun i : nat => match ovs with Some l => let o := nth i l share in if n0 <=~ o then o else share | None => share end).
  assert (D0 : forall i, 0 <= def i).
  { intro i. unfold def. destruct ovs as [l|]; [|exact SP]. cbv zeta. change (n0 <=~ nth i l share) with (Rleb 0 (nth i l share)). destruct (Rleb_spec 0 (nth i l share)); assumption. }
  split; [rewrite map_length, seq_length; reflexivity|]. split; [reflexivity|]. split; [reflexivity|]. split; [|split].
  - apply Forall_forall. intros g I. apply in_map_iff in I. destruct I as (i & <- & _). fold (def i). cbn [g_wall g_htc g_def g_gain g_malf]. repeat split. apply D0.
  - intros ->. rewrite map_map. cbn [g_def]. change (total (map (fun i => def i) (seq 0 n)) = htc). assert (Q : forall m s, total (map (fun i => def i) (seq s m)) = INR m * share).
    { induction m as [|m IH]; intro s; [cbn; lra|]. cbn [seq map total fold_right]. fold (total (map (fun i => def i) (seq (S s) m))). rewrite IH, S_INR. unfold def. lra. }
    rewrite Q, SH. field. lra.
  - intros l i g -> L G. rewrite nth_error_map in G. destruct (nth_error (seq 0 n) i) as [j|] eqn:J; [|discriminate]. injection G as <-. cbn [g_def].
    assert (IL : (i < n)%nat). { rewrite <- (seq_length n 0). apply nth_error_Some. congruence. }
    assert (j = i). { apply (nth_error_nth _ _ 0%nat) in J. rewrite seq_nth in J by exact IL. lia. } subst j.
    unfold def. cbv zeta. rewrite (nth_indep l share 0) by lia. change (n0 <=~ nth i l 0) with (Rleb 0 (nth i l 0)).
    destruct (Rleb_spec 0 (nth i l 0)), (Rle_dec 0 (nth i l 0)); try contradiction; [reflexivity|]. exact SH.
Qed.

(** ** C165: heat *)
Lemma conv_sound (f : @fl R) h flow ua wall : 0 < d_cp f ->
  let r := convR f h flow ua wall in
  snd r = Rabs flow * (h (d_t f) - h (fst r)) /\ (wall <= d_t f -> wall <= fst r <= d_t f) /\ (d_t f <= wall -> d_t f <= fst r <= wall).
Proof.
  intro C. cbv zeta. destruct (Rle_dec (Rabs flow) Reps) as [A|A]; [|destruct (Rle_dec ua Reps) as [B|B]].
  - destruct (C156_convection_heat f (fun x => x) flow ua wall C) as (Z & _); [intros; lra|].
    assert (Q : convR f h flow ua wall = (d_t f, 0)). { unfold conv_flux. change (nabs flow) with (Rabs flow). change (neps <~ Rabs flow) with (Rltb Reps (Rabs flow)). rewrite (Rltb_false Reps (Rabs flow)) by exact A. reflexivity. }
    rewrite Q. cbn [fst snd]. split; [lra|]. split; intro; lra.
  - assert (Q : convR f h flow ua wall = (d_t f, 0)). { unfold conv_flux. change (neps <~ ua) with (Rltb Reps ua). rewrite (Rltb_false Reps ua) by exact B. rewrite andb_false_r. reflexivity. }
    rewrite Q. cbn [fst snd]. split; [lra|]. split; intro; lra.
  - destruct (C156_convection f h flow ua wall C) as (_ & Q & L & U); [lra|lra|]. split; [exact Q|]. split; assumption.
Qed.
Definition gains (gs : list (seg R)) : R := total (map g_gain gs).
Lemma along_facts (f : @fl R) cp h flow over : (forall t, 0 < cp t) -> forall gs t acc,
  let r := alongR f cp h flow over gs t acc in
  snd (fst r) = acc + gains (fst (fst r)) /\
  (over <= feps -> snd (fst r) = acc + Rabs flow * (h t - h (snd r)) /\
     (forall lo hi, lo <= t <= hi -> Forall (fun g => lo <= g_wall g <= hi) gs -> lo <= snd r <= hi)) /\
  Forall2 (fun g g' => g' = with_gain g (g_gain g')) gs (fst (fst r)).
Proof.
  intros CP. induction gs as [|g gs IH]; intros t acc; cbv zeta.
  { cbn [along fst snd]. unfold gains. cbn [map total fold_right]. split; [lra|]. split; [|constructor]. intros _. split; [lra|]. intros lo hi H _. exact H. }
  cbn [along]. set (fluid := mkfl _ _ _ _ _ _ _ _).
  assert (CF : 0 < d_cp fluid) by apply CP. assert (TF : d_t fluid = t) by reflexivity. clearbody fluid.
  destruct (conv_sound fluid h flow (g_htc g) (g_wall g) CF) as (S1 & S2 & S3).
  destruct (convR fluid h flow (g_htc g) (g_wall g)) as [t1 q]. cbn [fst snd] in S1, S2, S3. rewrite TF in S1, S2, S3. clear TF.
  specialize (IH (overridden over t1) (acc +~ q)). cbv zeta in IH.
  destruct (alongR f cp h flow over gs (overridden over t1) (acc +~ q)) as [[r a] tn]. cbn [fst snd] in *.
  destruct IH as (I1 & I2 & I3). change (acc +~ q) with (acc + q) in *.
  unfold gains in *. cbn [map total fold_right with_gain g_gain]. fold (total (map g_gain r)). split; [lra|]. split; [|constructor; [reflexivity|exact I3]].
  intro O. specialize (I2 O). assert (X : overridden over t1 = t1). { unfold overridden. change (feps <~ over) with (Rltb feps over). rewrite (Rltb_false feps over) by lra. reflexivity. }
  rewrite X in *. destruct I2 as (I2 & I4). split; [lra|]. intros lo hi B W. inversion W as [|? ? W1 W2]; subst. apply I4; [|exact W2].
  destruct (Rle_dec (g_wall g) t) as [L|L]; [specialize (S2 L)|specialize (S3 ltac:(lra))]; lra.
Qed.
Definition flowing (dt flow : R) : Prop := Reps < Rabs flow /\ Reps < dt.
Lemma flowing_true dt flow : flowing dt flow -> (neps <~ nabs flow) && (neps <~ dt) = true.
Proof. intros [A B]. change (Rltb Reps (Rabs flow) && Rltb Reps dt = true). rewrite !Rltb_true by assumption. reflexivity. Qed.
Lemma gains_rev l : gains (rev l) = gains l.
Proof.
  unfold gains. rewrite map_rev. generalize (map g_gain l). clear. induction l as [|x l IH]; [reflexivity|]. cbn [rev].
  assert (A : forall a b, total (a ++ b) = total a + total b). { induction a as [|y a IHa]; intro b; [change (total b = 0 + total b); lra|]. change (y + total (a ++ b) = y + total a + total b). rewrite IHa. lra. }
  rewrite A, IH. change (total l + (x + 0) = x + total l). lra.
Qed.
(** The reported total is the sum of the segments' gains and is exactly the enthalpy the flow lost;
    the fluid leaves within the range of its own and the walls' temperatures. *)
Theorem C165_heat : forall dt flow (f : @fl R) cp h over gs, (forall t, 0 < cp t) -> flowing dt flow -> over <= feps ->
  let r := segsR dt flow f cp h over gs in
  let t := snd r in let q := snd (fst r) in
  q = gains (fst (fst r)) /\ q = Rabs flow * (h (d_t f) - h t) /\
  (forall lo hi, lo <= d_t f <= hi -> Forall (fun g => lo <= g_wall g <= hi) gs -> lo <= t <= hi).
Proof.
  intros dt flow f cp h over gs CP F O. cbv zeta. unfold hx_segments. rewrite flowing_true by exact F.
  assert (X : overridden over (d_t f) = d_t f). { unfold overridden. change (feps <~ over) with (Rltb feps over). rewrite (Rltb_false feps over) by lra. reflexivity. }
  rewrite X. change (flow <~ n0) with (Rltb flow 0). destruct (Rltb_spec flow 0) as [N|N].
  - destruct (along_facts f cp h flow over CP (rev gs) (d_t f) n0) as (A & B & _). destruct (alongR f cp h flow over (rev gs) (d_t f) n0) as [[r q] t]. cbn [fst snd] in *.
    destruct (B O) as (B1 & B2). change (n0 : R) with 0 in *. rewrite gains_rev. split; [lra|]. split; [lra|]. intros lo hi L W. apply (B2 lo hi L). apply Forall_rev. exact W.
  - destruct (along_facts f cp h flow over CP gs (d_t f) n0) as (A & B & _). destruct (alongR f cp h flow over gs (d_t f) n0) as [[r q] t]. cbn [fst snd] in *.
    destruct (B O) as (B1 & B2). change (n0 : R) with 0 in *. split; [lra|]. split; [lra|]. exact B2.
Qed.
(** Each segment in the order of the flow takes the fluid towards its wall: the heat goes to the colder. *)
Theorem C165_segment : forall (f : @fl R) cp h flow over g gs t acc, (forall t, 0 < cp t) -> (forall a b, a <= b -> h a <= h b) ->
  exists q r, fst (fst (alongR f cp h flow over (g :: gs) t acc)) = with_gain g q :: r /\
    (g_wall g <= t -> 0 <= q <= Rabs flow * (h t - h (g_wall g))) /\ (t <= g_wall g -> Rabs flow * (h t - h (g_wall g)) <= q <= 0) /\
    (g_htc g <= Reps -> q = 0).
Proof.
  intros f cp h flow over g gs t acc CP I. cbn [along]. set (fluid := mkfl _ _ _ _ _ _ _ _).
  assert (CF : 0 < d_cp fluid) by apply CP. assert (TF : d_t fluid = t) by reflexivity. clearbody fluid.
  destruct (C156_convection_heat fluid h flow (g_htc g) (g_wall g) CF I) as (Z & A & B). rewrite TF in *.
  destruct (convR fluid h flow (g_htc g) (g_wall g)) as [t1 q]. cbn [fst snd] in *.
  destruct (alongR f cp h flow over gs (overridden over t1) (acc +~ q)) as [[r a] tn]. cbn [fst]. exists q, r. split; [reflexivity|]. split; [exact A|]. split; [exact B|].
  intro L. specialize (Z (or_intror L)). injection Z. auto.
Qed.
(** Nothing happens without flow or time. *)
Theorem C165_idle : forall dt flow (f : @fl R) cp h over gs, ~ flowing dt flow ->
  segsR dt flow f cp h over gs = (map (fun g => with_gain g 0) gs, 0, d_t f).
Proof.
  intros dt flow f cp h over gs H. unfold hx_segments. change ((neps <~ nabs flow) && (neps <~ dt)) with (Rltb Reps (Rabs flow) && Rltb Reps dt). unfold flowing in H.
  destruct (Rltb_spec Reps (Rabs flow)), (Rltb_spec Reps dt); try reflexivity. exfalso. apply H. split; assumption.
Qed.
(** Flow the other way through the segments in the other order is the same. *)
Theorem C165_mirror : forall dt flow (f : @fl R) cp h over gs, flow <> 0 ->
  let r := segsR dt flow f cp h over gs in
  segsR dt (- flow) f cp h over (rev gs) = (rev (fst (fst r)), snd (fst r), snd r).
Proof.
  intros dt flow f cp h over gs NZ. cbv zeta. unfold hx_segments.
  assert (AB : nabs (- flow) = nabs flow) by (change (Rabs (- flow) = Rabs flow); apply Rabs_Ropp). rewrite AB.
  destruct ((neps <~ nabs flow) && (neps <~ dt)).
  2:{ cbn [fst snd]. rewrite map_rev. reflexivity. }
  assert (SY : forall gs t acc, alongR f cp h (- flow) over gs t acc = alongR f cp h flow over gs t acc).
  { clear -AB. induction gs as [|g gs IH]; intros t acc; [reflexivity|]. cbn [along].
    assert (Q : forall fl0 ua w, convR fl0 h (- flow) ua w = convR fl0 h flow ua w). { intros. unfold conv_flux. rewrite AB. reflexivity. }
    rewrite Q. destruct (convR _ h flow _ _) as [t1 q]. rewrite IH. reflexivity. }
  rewrite !SY. change (- flow <~ n0) with (Rltb (- flow) 0). change (flow <~ n0) with (Rltb flow 0).
  destruct (Rltb_spec (- flow) 0) as [?S1|?S1], (Rltb_spec flow 0) as [?S2|?S2]; try lra.
  - rewrite rev_involutive. destruct (alongR f cp h flow over gs _ _) as [[r q] t]. reflexivity.
  - destruct (alongR f cp h flow over (rev gs) _ _) as [[r q] t]. cbn [fst snd]. rewrite rev_involutive. reflexivity.
Qed.
(** With a temperature override the fluid enters every segment and leaves at it. *)
Theorem C165_override : forall dt flow (f : @fl R) cp h over gs, (forall t, 0 < cp t) -> flowing dt flow -> feps < over ->
  let r := segsR dt flow f cp h over gs in
  snd r = over /\ snd (fst r) = gains (fst (fst r)) /\
  Forall2 (fun g g' => exists out, g' = with_gain g (Rabs flow * (h over - h out)) /\
     (g_wall g <= over -> g_wall g <= out <= over) /\ (over <= g_wall g -> over <= out <= g_wall g)) gs (fst (fst r)).
Proof.
  intros dt flow f cp h over gs CP F O. cbv zeta. unfold hx_segments. rewrite flowing_true by exact F.
  assert (X : forall t, overridden over t = over). { intro t. unfold overridden. change (feps <~ over) with (Rltb feps over). rewrite Rltb_true by exact O. reflexivity. }
  rewrite X.
  assert (G : forall gs acc, snd (alongR f cp h flow over gs over acc) = over /\
     Forall2 (fun g g' => exists out, g' = with_gain g (Rabs flow * (h over - h out)) /\
     (g_wall g <= over -> g_wall g <= out <= over) /\ (over <= g_wall g -> over <= out <= g_wall g)) gs (fst (fst (alongR f cp h flow over gs over acc)))).
  { induction gs0 as [|g gs0 IH]; intro acc; cbn [along]; [split; [reflexivity|constructor]|]. set (fluid := mkfl _ _ _ _ _ _ _ _).
    assert (CF : 0 < d_cp fluid) by apply CP. assert (TF : d_t fluid = over) by reflexivity. clearbody fluid.
    destruct (conv_sound fluid h flow (g_htc g) (g_wall g) CF) as (S1 & S2 & S3).
    destruct (convR fluid h flow (g_htc g) (g_wall g)) as [t1 q]. cbn [fst snd] in S1, S2, S3. rewrite TF, X in *. destruct (IH (acc +~ q)) as (I1 & I2).
    destruct (alongR f cp h flow over gs0 over (acc +~ q)) as [[r a] tn]. cbn [fst snd] in *. split; [exact I1|]. constructor; [|exact I2]. exists t1. rewrite <- S1. split; [reflexivity|]. split; assumption. }
  change (flow <~ n0) with (Rltb flow 0). destruct (Rltb_spec flow 0) as [SG|SG].
  - destruct (G (rev gs) n0) as (A & B). destruct (along_facts f cp h flow over CP (rev gs) over n0) as (C & _). destruct (alongR f cp h flow over (rev gs) over n0) as [[r q] t].
    cbn [fst snd] in *. rewrite gains_rev. split; [exact A|]. split; [change (n0:R) with 0 in C; lra|].
    clear -B. rewrite <- (rev_involutive gs). revert B. generalize (rev gs). intros l B. induction B as [|x y l l' H B IH]; [constructor|]. cbn [rev]. apply Forall2_app; [exact IH|]. constructor; [exact H|constructor].
  - destruct (G gs n0) as (A & B). destruct (along_facts f cp h flow over CP gs over n0) as (C & _). destruct (alongR f cp h flow over gs over n0) as [[r q] t].
    cbn [fst snd] in *. split; [exact A|]. split; [change (n0:R) with 0 in C; lra|]. exact B.
Qed.
(** A whole update: the degraded coefficients, then the segments; the fluid's temperature is handed on. *)
Theorem C165_update : forall dt flow (f : @fl R) cp h t0 (x : hx R),
  let r := segsR dt flow f cp h (x_over x) (map (seg_degrade (x_malf x) (x_malfv x)) (x_segs x)) in
  let x' := fst (fluidR dt flow f cp h t0 x) in
  snd (fluidR dt flow f cp h t0 x) = snd r /\ x_segs x' = fst (fst r) /\ x_total x' = snd (fst r) /\
  x_over x' = x_over x /\ x_malf x' = x_malf x /\ x_malfv x' = x_malfv x /\
  (** with the flow from node 0, whose temperature the fluid has, the reported difference is the change across the exchanger *)
  (d_t f = t0 -> x_delta x' = snd (fluidR dt flow f cp h t0 x) - d_t f).
Proof.
  intros dt flow f cp h t0 x. cbv zeta. unfold hx_fluid. destruct (segsR _ _ _ _ _ _ _) as [[gs q] t]. cbn [fst snd x_segs x_total x_over x_malf x_malfv x_delta].
  repeat (split; [reflexivity|]). intros <-. reflexivity.
Qed.
(** With the flow the other way it is not: fluid that passes unchanged from node 1 to a hotter node 0 is reported as cooled. *)
Definition wallAt (t : R) : seg R := mkseg 1 1 t 0 false 0.
Theorem C165_delta_refuted : exists (f : @fl R) cp h flow t0 (x : hx R), (forall t, 0 < cp t) /\ flow < 0 /\ flowing 1 flow /\
  snd (fluidR 1 flow f cp h t0 x) = d_t f /\ x_delta (fst (fluidR 1 flow f cp h t0 x)) = -100.
Proof.
  exists (gasAt 100 28), (fun _ => 1), (fun t => t), (-1), 400, (mkhx [wallAt 300] 0 false 0 0 0).
  pose proof Reps_pos. pose proof Reps_small. pose proof hx_feps as FE.
  assert (F : flowing 1 (-1)). { unfold flowing. rewrite (Rabs_left (-1)) by lra. lra. }
  split; [intro; lra|]. split; [lra|]. split; [exact F|].
  assert (T : snd (fluidR 1 (-1) (gasAt 100 28) (fun _ : R => 1) (fun t : R => t) 400 (mkhx [wallAt 300] 0 false 0 0 0)) = 300).
  { destruct (C165_update 1 (-1) (gasAt 100 28) (fun _ => 1) (fun t => t) 400 (mkhx [wallAt 300] 0 false 0 0 0)) as (-> & _). cbn [x_over x_malf x_malfv x_segs map].
    destruct (C165_heat 1 (-1) (gasAt 100 28) (fun _ => 1) (fun t => t) 0 [seg_degrade false 0 (wallAt 300)]) as (_ & _ & B); [intro; lra|exact F|lra|].
    specialize (B 300 300). cbn [gasAt d_t seg_degrade g_wall wallAt] in B. assert (300 <= 300 <= 300) by lra. specialize (B H1 ltac:(constructor; [cbn; lra|constructor])). unfold gasAt in *. lra. }
  split; [rewrite T; reflexivity|]. unfold hx_fluid in *. destruct (segsR _ _ _ _ _ _ _) as [[gs q] t]. cbn [fst snd x_delta] in *. rewrite T. change (300 - 400 = -100). lra.
Qed.
(** The setters change what they name, for segments that exist, and keep temperatures positive. *)
Theorem C165_setters : forall i (x : hx R) b v,
  x_segs (set_hx_malf b v x) = x_segs x /\ x_malf (set_hx_malf b v x) = b /\ x_malfv (set_hx_malf b v x) = v /\
  x_over (set_over v x) = Rmax 0 v /\ x_segs (set_over v x) = x_segs x /\
  ((i < 0 \/ Z.of_nat (length (x_segs x)) <= i)%Z -> set_seg_malf i b v x = x /\ set_seg_temp i v x = x) /\
  (forall n, i = Z.of_nat n -> (n < length (x_segs x))%nat -> forall j g, nth_error (x_segs x) j = Some g ->
     nth_error (x_segs (set_seg_malf i b v x)) j = Some (if Nat.eqb j n then mkseg (g_def g) (g_htc g) (g_wall g) (g_gain g) b v else g) /\
     nth_error (x_segs (set_seg_temp i v x)) j = Some (if Nat.eqb j n then mkseg (g_def g) (g_htc g) (Rmax 0 v) (g_gain g) (g_malf g) (g_malfv g) else g)).
Proof.
  intros i x b v. split; [reflexivity|]. split; [reflexivity|]. split; [reflexivity|]. split; [unfold set_over; cbn [x_over]; apply nmaxR|]. split; [reflexivity|]. split.
  - intro H. unfold set_seg_malf, set_seg_temp, on_seg. destruct (Z.leb_spec 0 i), (Z.ltb_spec i (Z.of_nat (length (x_segs x)))); cbn [andb]; try (split; reflexivity). lia.
  - intros n -> L j g J. unfold set_seg_malf, set_seg_temp, on_seg. destruct (Z.leb_spec 0 (Z.of_nat n)); [|lia]. destruct (Z.ltb_spec (Z.of_nat n) (Z.of_nat (length (x_segs x)))); [|lia]. cbn [andb x_segs].
    rewrite Nat2Z.id, !nth_error_map.
    assert (C : nth_error (combine (seq 0 (length (x_segs x))) (x_segs x)) j = Some (j, g)).
    { clear -J. assert (Q : forall l s j, nth_error l j = Some g -> nth_error (combine (seq s (length l)) l) j = Some ((s + j)%nat, g)).
      { induction l as [|y l IH]; intros s [|k] E; cbn in *; try discriminate; [injection E as ->; rewrite Nat.add_0_r; reflexivity|]. rewrite IH by exact E. f_equal. f_equal. lia. }
      apply (Q _ 0%nat j J). }
    rewrite C. cbn [option_map fst snd]. rewrite nmaxR. destruct (Nat.eqb j n); split; reflexivity.
Qed.
Example C165_ex : exists (f : @fl R) (gs : list (seg R)), flowing 1 (-2) /\ (0 : R) <= feps /\ 250 <= d_t f <= 350 /\ Forall (fun g => 250 <= g_wall g <= 350) gs /\ gs <> [].
Proof.
  exists (gasAt 100 28), [wallAt 280; wallAt 320]. pose proof Reps_pos. pose proof Reps_small. pose proof hx_feps. split; [unfold flowing; rewrite Rabs_left by lra; lra|].
  split; [lra|]. cbn [gasAt d_t]. split; [lra|]. split; [|discriminate]. repeat constructor; cbn; lra.
Qed.
Print Assumptions C165_coefficient. Print Assumptions C165_init. Print Assumptions C165_heat. Print Assumptions C165_segment. Print Assumptions C165_idle.
Print Assumptions C165_mirror. Print Assumptions C165_override. Print Assumptions C165_update. Print Assumptions C165_delta_refuted. Print Assumptions C165_setters.

(** ** C166: coefficients that follow the flow *)
Notation rawR := (dyn_raw powR).
Notation dynR := (dyn_htc powR).
(** The curve: a constant, plus a power of the flow up to ten. *)
Definition curve (y : dyn R) (m : R) : R :=
  let m := Rmin 10 (Rabs m) in if Rlt_dec feps m then y_c0 y + y_c1 y * Rpower m (within (1 / 20) (y_e y) 20) else y_c0 y.
Lemma rawE (y : dyn R) m : rawR y m = curve y m.
Proof.
  unfold dyn_raw, curve. pose proof hx_feps as FE. set (e := feps : R) in *. clearbody e.
  assert (D1 : (ndec 5 (-2) : R) = 1 / 20) by (rnum; unfold Rdec; cbn; lra). assert (D2 : (ndec 20 0 : R) = 20) by (rnum; unfold Rdec; cbn; lra). assert (D3 : (ndec 10 0 : R) = 10) by (rnum; unfold Rdec; cbn; lra).
  rewrite D1, D2, D3, nminR, limit_within by lra. change (nabs m) with (Rabs m). cbv zeta. set (k := Rmin 10 (Rabs m)). change (e <~ k) with (Rltb e k).
  destruct (Rltb_spec e k), (Rlt_dec e k); try contradiction; [|reflexivity]. unfold powR. destruct (Rlt_dec 0 k); [reflexivity|lra].
Qed.
Theorem C166_htc : forall (y : dyn R) m d, 0 <= y_lim y ->
  dynR y m d = within 0 (curve y m * d) (y_lim y) /\ 0 <= dynR y m d <= y_lim y /\ dynR y (- m) d = dynR y m d.
Proof.
  intros y m d L. unfold dyn_htc. rewrite !rawE, !limit_within by exact L. change (n0 : R) with 0. split; [reflexivity|].
  split; [unfold within; split; [apply Rmax_l|]; apply Rmax_lub; [exact L|apply Rmin_r]|]. unfold curve. rewrite Rabs_Ropp. reflexivity.
Qed.
(** More flow and less degradation never exchange less; beyond ten the flow does not matter. *)
Lemma curve_mono (y : dyn R) m m' : 0 <= y_c1 y -> Rabs m <= Rabs m' -> curve y m <= curve y m'.
Proof.
  intros C H. unfold curve. pose proof hx_feps as FE. set (e := feps : R) in *. clearbody e. cbv zeta.
  assert (K : Rmin 10 (Rabs m) <= Rmin 10 (Rabs m')). { unfold Rmin. destruct (Rle_dec 10 (Rabs m)), (Rle_dec 10 (Rabs m')); lra. }
  set (k := Rmin 10 (Rabs m)) in *. set (k' := Rmin 10 (Rabs m')) in *. clearbody k k'.
  assert (W : 0 < within (1 / 20) (y_e y) 20) by (unfold within; pose proof (Rmax_l (1 / 20) (Rmin (y_e y) 20)); lra).
  destruct (Rlt_dec e k), (Rlt_dec e k'); try lra.
  - apply Rplus_le_compat_l. apply Rmult_le_compat_l; [exact C|]. apply Rle_Rpower_l; [lra|split; lra].
  - assert (0 < Rpower k' (within (1 / 20) (y_e y) 20)) by (unfold Rpower; apply exp_pos). pose proof (Rmult_le_pos _ _ C (Rlt_le _ _ H0)). lra.
Qed.
Theorem C166_monotone : forall (y : dyn R) m m' d d', 0 <= y_lim y -> 0 <= y_c0 y -> 0 <= y_c1 y -> Rabs m <= Rabs m' -> 0 <= d <= d' ->
  dynR y m d <= dynR y m' d' /\ (10 <= Rabs m -> dynR y m d = dynR y m' d).
Proof.
  intros y m m' d d' L C0 C1 M D. destruct (C166_htc y m d L) as (-> & _). destruct (C166_htc y m' d' L) as (-> & _). destruct (C166_htc y m' d L) as (-> & _).
  pose proof (curve_mono y m m' C1 M) as Q.
  assert (P : 0 <= curve y m). { unfold curve. cbv zeta. destruct (Rlt_dec _ _); [|exact C0]. assert (0 < Rpower (Rmin 10 (Rabs m)) (within (1 / 20) (y_e y) 20)) by (unfold Rpower; apply exp_pos). pose proof (Rmult_le_pos _ _ C1 (Rlt_le _ _ H)). lra. }
  split.
  - assert (X : curve y m * d <= curve y m' * d') by (apply Rmult_le_compat; lra). unfold within. apply Rle_max_compat_l. apply Rle_min_compat_r. exact X.
  - intro T. f_equal. f_equal. unfold curve. rewrite (Rmin_left 10 (Rabs m)) by lra. rewrite (Rmin_left 10 (Rabs m')) by lra. reflexivity.
Qed.
(** A segment's degradation, its own first, counts between none and all. *)
Theorem C166_segment : forall b v m (y : dyn R) (g : seg R), 0 <= y_lim y ->
  let g' := dyn_seg powR b v m y g in
  g_htc g' = within 0 (curve y m * within 0 (if g_malf g then g_malfv g else if b then v else 1) 1) (y_lim y) /\
  g_wall g' = g_wall g /\ g_malf g' = g_malf g /\ g_malfv g' = g_malfv g /\ g_def g' = g_def g.
Proof.
  intros b v m y g L. cbv zeta. unfold dyn_seg. cbn [g_htc g_wall g_malf g_malfv g_def]. split; [|repeat split].
  match goal with |- dynR y m ?d = _ => destruct (C166_htc y m d L) as (-> & _) end. rewrite limit_within by (change (0 <= 1); lra). reflexivity.
Qed.
(** Set up: exponent and limit are checked; without curves of their own the segments share the exchanger's,
    so that together they have it at any flow. *)
Definition dyn_good (y : dyn R) : Prop := 1 / 20 <= y_e y <= 20 /\ feps <= y_lim y.
Lemma okE (y : dyn R) : dyn_ok (y_e y) (y_lim y) = true <-> dyn_good y.
Proof.
  unfold dyn_ok, dyn_good, is_in_range. set (e := feps : R). clearbody e.
  assert (D1 : (ndec 5 (-2) : R) = 1 / 20) by (rnum; unfold Rdec; cbn; lra). assert (D2 : (ndec 20 0 : R) = 20) by (rnum; unfold Rdec; cbn; lra). rewrite D1, D2.
  change ((Rleb (1 / 20) (y_e y) && Rleb (y_e y) 20) && negb (Rltb (y_lim y) e) = true <-> 1 / 20 <= y_e y <= 20 /\ e <= y_lim y).
  destruct (Rleb_spec (1 / 20) (y_e y)), (Rleb_spec (y_e y) 20), (Rltb_spec (y_lim y) e); cbn [andb negb]; split; intro H; try discriminate; try reflexivity; lra.
Qed.
Theorem C166_init : forall n (y : dyn R) ovs, (0 < n)%nat ->
  (ovs = [] -> (dyn_init n y ovs = None <-> ~ dyn_good y) /\
     forall l, dyn_init n y ovs = Some l -> length l = n /\
       Forall (fun z => y_e z = y_e y /\ y_lim z = y_lim y / INR n) l /\
       forall m, total (map (fun z => curve z m) l) = curve y m) /\
  (ovs <> [] -> (dyn_init n y ovs = Some ovs <-> length ovs = n /\ Forall dyn_good ovs) /\
                (dyn_init n y ovs = None <-> ~ (length ovs = n /\ Forall dyn_good ovs))).
Proof.
  intros n y ovs N. assert (PN : 0 < INR n) by (apply lt_0_INR; exact N). split.
  - intros ->. unfold dyn_init. rewrite dec_nat. destruct (dyn_ok (y_e y) (y_lim y)) eqn:E.
    + apply okE in E. split; [split; [discriminate|intro H; contradiction]|]. intros l H. injection H as <-. split; [rewrite map_length, seq_length; reflexivity|]. split.
      * apply Forall_forall. intros z I. apply in_map_iff in I. destruct I as (i & <- & _). split; reflexivity.
      * intro m. rewrite map_map. set (z := mkdyn _ _ _ _). assert (Z : curve z m = curve y m / INR n).
        { unfold curve, z. cbn [y_c0 y_c1 y_e]. rnum. destruct (Rlt_dec _ _); field; lra. }
        clearbody z. 
        assert (Q : forall k s, total (map (fun _ : nat => curve z m) (seq s k)) = INR k * curve z m).
        { induction k as [|k IH]; intro s; [cbn; lra|]. cbn [seq map total fold_right]. fold (total (map (fun _ : nat => curve z m) (seq (S s) k))). rewrite IH, S_INR. lra. }
        rewrite Q, Z. field. lra.
    + split; [|discriminate]. split; [|reflexivity]. intros _ H. apply okE in H. congruence.
  - intro NE. assert (G : forallb (fun o => dyn_ok (y_e o) (y_lim o)) ovs = true <-> Forall dyn_good ovs).
    { rewrite forallb_forall, Forall_forall. split; intros H o I; apply okE, H, I. }
    assert (D : dyn_init n y ovs = if Nat.eqb (length ovs) n && forallb (fun o => dyn_ok (y_e o) (y_lim o)) ovs then Some ovs else None) by (destruct ovs; [contradiction|reflexivity]).
    rewrite D, <- G. destruct (Nat.eqb_spec (length ovs) n), (forallb _ ovs); cbn [andb]; (split; split; [try discriminate|try (intros [? ?]; (reflexivity || discriminate || contradiction))|try discriminate|]); try tauto;
      try (intros _ [? ?]; (discriminate || contradiction)); try (intros _; reflexivity); try (intros [? ?]; (reflexivity || discriminate || contradiction)); intro H; exfalso; apply H; split; (assumption || reflexivity).
Qed.
Example C166_ex : exists y : dyn R, dyn_good y /\ 0 <= y_lim y /\ 0 <= y_c0 y /\ 0 <= y_c1 y.
Proof. exists (mkdyn 1 2 (1 / 2) 100). pose proof hx_feps. unfold dyn_good. cbn [y_e y_lim y_c0 y_c1]. lra. Qed.
Print Assumptions C166_htc. Print Assumptions C166_monotone. Print Assumptions C166_segment. Print Assumptions C166_init.
