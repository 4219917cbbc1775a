(** What electrical converters deliver and draw (C144 and C146). *)
From Coq Require Import Floats.
From Coq Require Import Reals Bool ZArith Arith Lia Lra Psatz List.
From Verif Require Import Num MathUtil Trip Converter Spec_Valve Props_Math Props_Valve Props_Converter.
Import ListNotations.
Open Scope R_scope.

Lemma dec15 : (g_limit : R) = 10 ^ 15.
Proof. unfold g_limit, ndec, RNum, Rdec. change (10 ^ 15)%Z with (10 ^ Z.of_nat 15)%Z. rewrite <- pow_IZR. lra. Qed.
Lemma feps_val : (flt_eps : R) = / 2 ^ 23.
Proof. unfold flt_eps, ndec, RNum, Rdec. change (10 ^ 23)%Z with (11920928955078125 * 2 ^ 23)%Z. rewrite mult_IZR. change (2 ^ 23)%Z with (2 ^ Z.of_nat 23)%Z. rewrite <- pow_IZR. field. Qed.
Lemma feps_range : 0 < (flt_eps : R) < 1.
Proof. rewrite feps_val. split; [apply Rinv_0_lt_compat, pow_lt; lra|]. rewrite <- Rinv_1. apply Rinv_lt_contravar; [|cbn; lra]. rewrite Rmult_1_l. apply pow_lt; lra. Qed.
Lemma within_at lo x hi : lo <= x <= hi -> within lo x hi = x.
Proof. intros H. unfold within, Rmin, Rmax. repeat destruct (Rle_dec _ _); lra. Qed.
Lemma within_range lo x hi : lo <= hi -> lo <= within lo x hi <= hi.
Proof. intros H. unfold within, Rmin, Rmax. repeat destruct (Rle_dec _ _); lra. Qed.
Lemma big_pos : 1 < 10 ^ 15.
Proof. cbn; lra. Qed.

(** How much of the link is left open. *)
Definition open_part (k : port R) : R := if q_malf k then 1 - within 0 (q_malfv k) 1 else 1.
Lemma open_range k : 0 <= open_part k <= 1.
Proof. unfold open_part. destruct (q_malf k); [|lra]. pose proof (within_range 0 (q_malfv k) 1). lra. Qed.
Lemma blocked_open (o : cout R) x : blocked o x = x * open_part (o_k o).
Proof. unfold blocked, open_part. destruct (q_malf (o_k o)); [|ring]. rewrite <- limit_within by lra. reflexivity. Qed.

(** ** C144: the output side *)
(** What a regulator stands for: volts behind the output conductance, or amperes. *)
Inductive supply := Volts (v : R) | Amps (c : R).
Definition supplied (t : reg) (l : lim) (set vin ov uv oc part load : R) : supply :=
  match t, l with
  | VOLTAGE, LIMIT_OC | TRANSFORMER, LIMIT_OC => Amps oc
  | VOLTAGE, _ => Volts set
  | TRANSFORMER, _ => Volts (set * vin)
  | _, LIMIT_OV => Volts ov
  | _, LIMIT_UV => Volts uv
  | CURRENT, NO_LIMIT => Amps (set * part)
  | CURRENT, LIMIT_OC => Amps (oc * part)
  | POWER, _ => Amps (if Rlt_dec 0 set then if Rlt_dec 0 load then sqrt (set / load) * part else 0 else 0)
  end.
Definition load_of (p flux : R) : R := if Rlt_dec Reps flux then if Rlt_dec Reps p then p / flux else 1 else 1.
Definition runs (m : nat) (o : cout R) : bool :=
  o_en o && (if Nat.eqb 1 m then Rltb 0 (o_vin o) else o_avail o) && negb (t_trip (o_ov o) || t_trip (o_oc o) || t_trip (o_uv o)).
Definition at_volts (o : cout R) (p : R) : cout R := o_with_k o (q_pot (o_k o) p).
Definition supply_of (o : cout R) : supply :=
  supplied (o_type o) (o_lim o) (o_set o) (o_vin o) (t_limit (o_ov o)) (t_limit (o_uv o)) (t_limit (o_oc o)) (open_part (o_k o)) (load_of (q_p (o_k o)) (out_flux o)).
Definition conducts (o : cout R) : R := within 0 (o_g o * open_part (o_k o)) (10 ^ 15).

Lemma sources_supply (o : cout R) : 0 <= o_g o ->
  sources sqrt o = match supplied (o_type o) (o_lim o) (o_set o) (o_vin o) (t_limit (o_ov o)) (t_limit (o_uv o)) (t_limit (o_oc o)) (open_part (o_k o)) (o_load o) with
                   | Volts v => (o_g o * open_part (o_k o), v, 0)
                   | Amps c => (flt_eps, 0, c)
                   end.
Proof.
  intros _. unfold sources, supplied.
  assert (L : forall y z : R, (if (n0 <~ o_set o) && (n0 <~ o_load o) then y else z) = if Rlt_dec 0 (o_set o) then if Rlt_dec 0 (o_load o) then y else z else z).
  { intros. change (n0 <~ o_set o) with (Rltb 0 (o_set o)). change (n0 <~ o_load o) with (Rltb 0 (o_load o)). unfold Rltb. destruct (Rlt_dec 0 (o_set o)), (Rlt_dec 0 (o_load o)); reflexivity. }
  destruct (o_type o), (o_lim o); cbn [is_voltage]; rewrite ?L, ?blocked_open; reflexivity.
Qed.
Lemma drive_is m (o : cout R) : 0 <= o_g o -> let x := out_drive sqrt m o in
  let a := match supply_of o with Volts _ => conducts o | Amps _ => flt_eps end in
  let a := if runs m o then if o_rev o then 0 else a else 0 in
  q_a (o_k x) = a /\
  q_w (o_k x) = (if runs m o then match supply_of o with Volts v => v * a | Amps c => c end else 0) /\
  o_src x = (if runs m o then match supply_of o with Volts v => v | Amps _ => 0 end else 0).
Proof.
  intros G. cbv zeta. unfold out_drive.
  set (o1 := if Nat.eqb 1 m then o_with_avail o (n0 <~ o_vin o) else o).
  assert (AV : o_en o1 && o_avail o1 && negb (any_trips o1) = runs m o) by (unfold o1, runs, any_trips; destruct (Nat.eqb 1 m); reflexivity).
  set (o2 := estimate_load o1).
  assert (AV2 : o_en o2 && o_avail o2 && negb (any_trips o2) = runs m o) by (rewrite <- AV; reflexivity).
  assert (LD : o_load o2 = load_of (q_p (o_k o)) (out_flux o)).
  { unfold o2, estimate_load, compute_flux, load_of. cbn [o_with_load o_with_k o_load o_k q_flow q_flux q_p].
    assert (F : out_flux o1 = out_flux o) by (unfold o1; destruct (Nat.eqb 1 m); reflexivity). assert (P : q_p (o_k o1) = q_p (o_k o)) by (unfold o1; destruct (Nat.eqb 1 m); reflexivity).
    rewrite F, P. set (fl := out_flux o). set (p := q_p (o_k o)). change (neps <~ fl) with (Rltb Reps fl). change (neps <~ p) with (Rltb Reps p). unfold Rltb.
    destruct (Rlt_dec Reps fl), (Rlt_dec Reps p); reflexivity. }
  assert (EQ : o_type o2 = o_type o /\ o_lim o2 = o_lim o /\ o_set o2 = o_set o /\ o_vin o2 = o_vin o /\ o_ov o2 = o_ov o /\ o_uv o2 = o_uv o /\ o_oc o2 = o_oc o /\ open_part (o_k o2) = open_part (o_k o) /\ o_g o2 = o_g o /\ o_rev o2 = o_rev o)
    by (unfold o2, o1; destruct (Nat.eqb 1 m); repeat split).
  clearbody o2. destruct EQ as (E1 & E2 & E3 & E4 & E5 & E6 & E7 & E8 & E9 & E10).
  assert (SS := sources_supply o2). rewrite E1, E2, E3, E4, E5, E6, E7, E8, E9, LD in SS. specialize (SS G). fold (supply_of o) in SS. rewrite AV2, SS, E10.
  pose proof feps_range as FE. pose proof big_pos as BP. clear SS AV AV2 LD E1 E2 E3 E4 E5 E6 E7 E8 E9 E10.
  assert (K : forall (k : port R) (g : R), let k' := (if n0 <~ nabs (q_a k -~ limit_range n0 g g_limit) then q_adm k (limit_range n0 g g_limit) true else k) in q_a k' = within 0 g (10 ^ 15)).
  { intros k g. cbv zeta. assert (W : limit_range n0 g g_limit = within 0 g (10 ^ 15)) by (rewrite dec15; apply limit_within; lra). rewrite W. set (w := within 0 g (10 ^ 15)). clearbody w.
    change (n0 <~ nabs (q_a k -~ w)) with (Rltb 0 (Rabs (q_a k - w))). destruct (Rltb_spec 0 (Rabs (q_a k - w))) as [H|H]; [reflexivity|].
    destruct (Req_dec (q_a k - w) 0) as [Z|Z]; [lra|]. apply Rabs_pos_lt in Z. lra. }
  assert (W0 : within 0 0 (10 ^ 15) = 0) by (apply within_at; lra). assert (WF : within 0 flt_eps (10 ^ 15) = flt_eps) by (apply within_at; lra).
  assert (W : forall g : R, limit_range n0 g g_limit = within 0 g (10 ^ 15)) by (intro g; rewrite dec15; apply limit_within; lra).
  destruct (runs m o); [destruct (supply_of o) as [v|c]|]; destruct (o_rev o); cbn [o_with_src o_with_k o_k o_src q_src q_a q_w]; rewrite K, W; unfold conducts;
    change (@n0 R RNum) with 0; rewrite ?W0, ?WF; rnum; repeat split; ring.
Qed.

(** What a converter delivers after a minor step, whatever potential the network then finds. *)
Theorem C144_delivers : forall m (o : cout R) p, 0 <= o_g o ->
  let x := out_drive sqrt m o in let I := out_flux (at_volts x p) in
  0 <= I /\ (runs m o = false -> I = 0 /\ q_a (o_k x) = 0 /\ q_w (o_k x) = 0) /\
  (runs m o = true ->
   match supply_of o with
   | Volts v => I = (if o_rev o then 0 else Rmax 0 ((v - p) * conducts o)) /\ o_src x = v
   | Amps c => I = Rmax 0 (c - p * (if o_rev o then 0 else / 2 ^ 23)) /\ o_src x = 0
   end).
Proof.
  intros m o p G. cbv zeta. pose proof (drive_is m o G) as D. cbv zeta in D. destruct D as (D1 & D2 & D3).
  assert (F : out_flux (at_volts (out_drive sqrt m o) p) = Rmax 0 (q_w (o_k (out_drive sqrt m o)) - p * q_a (o_k (out_drive sqrt m o)))).
  { unfold out_flux, at_volts. rewrite nmaxR'. reflexivity. }
  rewrite F, D1, D2, D3. rewrite feps_val. split; [apply Rmax_l|]. split; intro H; rewrite H.
  - repeat split. rewrite Rmax_left; lra.
  - destruct (supply_of o); split; try reflexivity.
    destruct (o_rev o); [rewrite Rmax_left; lra|]. f_equal. ring.
Qed.
Print Assumptions C144_delivers.

(** What it takes from the input side for that. *)
Theorem C144_energy : forall (o : cout R), q_gnd (o_k o) = false -> o_pval o = true -> Reps <= o_g o ->
  let x := input_power o in let I := out_flux o in let p := q_p (o_k o) in
  q_flux (o_k (fst x)) = I /\ q_power (o_k (fst x)) = I * p /\ o_chloss (fst x) = I * I / o_g o /\
  snd x * within Reps (o_ceff o) 1 = I * p + I * I / o_g o /\ o_loss (fst x) = snd x - I * p /\ (0 <= p -> 0 <= o_loss (fst x)).
Proof.
  intros o G PV GE. cbv zeta. unfold input_power. rewrite G, PV. cbn [orb negb fst snd]. cbn [o_with_loss o_with_k o_k o_chloss o_loss q_flow q_flux q_power].
  pose proof Reps_pos as EP. pose proof Reps_small as ES. assert (ME : nmax neps (o_g o) = o_g o) by (rewrite nmaxR'; rnum; apply Rmax_right; exact GE). rewrite ME.
  assert (IP : 0 <= out_flux o) by (unfold out_flux; rewrite nmaxR'; rnum; apply Rmax_l).
  assert (LW : limit_range neps (o_ceff o) n1 = within Reps (o_ceff o) 1) by (apply limit_within; rnum; lra). rewrite LW.
  pose proof (within_range Reps (o_ceff o) 1) as WR. set (e := within Reps (o_ceff o) 1) in *. set (I := out_flux o) in *. set (g := o_g o) in *. set (p := q_p (o_k o)) in *. clearbody e I g p.
  rnum. split; [reflexivity|]. split; [reflexivity|]. split; [reflexivity|]. split; [field; lra|]. split; [reflexivity|]. intro P.
  assert (Q : 0 <= I * I / g). { apply Rmult_le_pos; [nra|]. left. apply Rinv_0_lt_compat. lra. }
  assert (IP' : 0 <= I * p) by nra. set (q := I * I / g) in *. clearbody q. set (y := I * p) in *. clearbody y.
  assert (Z : y + q <= (y + q) / e). { apply Rmult_le_reg_r with e; [lra|]. unfold Rdiv. rewrite Rmult_assoc, Rinv_l by lra. nra. } lra.
Qed.
Print Assumptions C144_energy.

Lemma volts_facts m (o : cout R) p : let x := at_volts (out_drive sqrt m o) p in
  q_gnd (o_k x) = q_gnd (o_k o) /\ o_pval x = o_pval o /\ o_g x = o_g o /\ o_ceff x = o_ceff o /\ q_p (o_k x) = p.
Proof.
  cbv zeta. pose proof (drive_facts sqrt m o) as [F1 F2]. split; [cbn; rewrite F1; reflexivity|]. split; [cbn; rewrite F2; reflexivity|].
  unfold at_volts, out_drive. destruct (if _ && _ && _ then _ else _) as [[a b] c]. destruct (n0 <~ _), (Nat.eqb 1 m); repeat split.
Qed.
(** An open voltage regulator delivers its own voltage times the current. *)
Theorem C144_voltage_energy : forall m (o : cout R) p v, q_gnd (o_k o) = false -> o_pval o = true -> Reps <= o_g o <= 10 ^ 15 ->
  open_part (o_k o) = 1 -> runs m o = true -> o_rev o = false -> supply_of o = Volts v -> p <= v ->
  let x := at_volts (out_drive sqrt m o) p in
  out_flux x = (v - p) * o_g o /\ snd (input_power x) * within Reps (o_ceff o) 1 = v * out_flux x.
Proof.
  intros m o p v G PV GE OP RU RV SU P. cbv zeta. pose proof Reps_pos as EP.
  pose proof (C144_delivers m o p) as D. cbv zeta in D. destruct D as (_ & _ & D); [lra|]. specialize (D RU). rewrite SU, RV in D. destruct D as [D _].
  assert (C : conducts o = o_g o) by (unfold conducts; rewrite OP, Rmult_1_r; apply within_at; lra). rewrite C, Rmax_right in D by nra.
  split; [exact D|]. set (x := at_volts (out_drive sqrt m o) p) in *.
  assert (X : q_gnd (o_k x) = false /\ o_pval x = true /\ o_g x = o_g o /\ o_ceff x = o_ceff o /\ q_p (o_k x) = p).
  { destruct (volts_facts m o p) as (F1 & F2 & F3 & F4 & F5). unfold x. rewrite F1, F2. auto. }
  destruct X as (X1 & X2 & X3 & X4 & X5). pose proof (C144_energy x X1 X2) as E. rewrite X3, X4, X5 in E. cbv zeta in E. destruct E as (_ & _ & _ & E & _); [lra|]. rewrite E, D. field. lra.
Qed.
Print Assumptions C144_voltage_energy.

(** A power regulator that meets the same resistance again delivers its setpoint, but for the
    conductance that a current source has. *)
Theorem C144_power : forall m (o : cout R) r p, 0 <= o_g o -> o_type o = POWER -> o_lim o = NO_LIMIT -> open_part (o_k o) = 1 ->
  runs m o = true -> o_rev o = false -> 0 < o_set o -> Reps < q_p (o_k o) -> Reps < out_flux o -> r = q_p (o_k o) / out_flux o ->
  let x := at_volts (out_drive sqrt m o) p in out_flux x = p / r -> p * out_flux x = o_set o / (1 + r / 2 ^ 23) ^ 2.
Proof.
  intros m o r p G TY LI OP RU RV SE P1 P2 Q. cbv zeta. intro S. pose proof Reps_pos as EP.
  pose proof (C144_delivers m o p G) as D. cbv zeta in D. destruct D as (_ & _ & D). specialize (D RU). unfold supply_of in D. rewrite TY, LI, OP, RV in D.
  assert (LO : load_of (q_p (o_k o)) (out_flux o) = r) by (unfold load_of; destruct (Rlt_dec Reps (out_flux o)); [|lra]; destruct (Rlt_dec Reps (q_p (o_k o))); [|lra]; symmetry; exact Q).
  rewrite LO in D. assert (RP : 0 < r) by (rewrite Q; apply Rdiv_lt_0_compat; lra). unfold supplied in D.
  destruct (Rlt_dec 0 (o_set o)) as [_|]; [|lra]. destruct (Rlt_dec 0 r) as [_|]; [|lra]. destruct D as [D _]. rewrite Rmult_1_r in D. rewrite D in S. rewrite D. clear D.
  assert (C : 0 < sqrt (o_set o / r)) by (apply sqrt_lt_R0, Rdiv_lt_0_compat; lra). assert (C2 : sqrt (o_set o / r) * sqrt (o_set o / r) = o_set o / r) by (apply sqrt_sqrt; left; apply Rdiv_lt_0_compat; lra).
  assert (KP : 0 < / 2 ^ 23) by (apply Rinv_0_lt_compat, pow_lt; lra). replace (r / 2 ^ 23) with (r * / 2 ^ 23) by reflexivity. set (k := / 2 ^ 23) in *. clearbody k. set (c := sqrt (o_set o / r)) in *. clearbody c.
  assert (S2 : c - p * k = p / r).
  { unfold Rmax in S. destruct (Rle_dec 0 (c - p * k)) as [L|L]; [exact S|]. exfalso. assert (Z : p = 0). { apply Rmult_eq_reg_r with (/ r); [|apply Rinv_neq_0_compat; lra]. unfold Rdiv in S. lra. } rewrite Z in L. lra. }
  rewrite S. assert (PP : p * (1 + r * k) = r * c). { apply Rmult_eq_reg_r with (/ r); [|apply Rinv_neq_0_compat; lra]. transitivity (p / r + p * k); [field; lra|]. rewrite <- S2. field. lra. }
  assert (N : 0 < 1 + r * k) by nra. assert (PE : p = r * c / (1 + r * k)) by (rewrite <- PP; field; lra). rewrite PE. transitivity (r * (c * c) / (1 + r * k) ^ 2); [field; lra|]. rewrite C2. field. lra.
Qed.
Print Assumptions C144_power.

Definition kr (p malfv : R) (malf : bool) : port R := mkport false p 0 0 false 0 0 0 malf malfv.
Definition conv_ex (malf : bool) (t : reg) (p : R) : cout R :=
  mkout (kr p (1 / 2) malf) t false 1 1 5 true false 2 100 true true 0 true 0 0 0 (trip_init 0 1%Z false) (trip_init 0 1%Z false) (trip_init 0 1%Z false) false false 0 NO_LIMIT 0 0.

(** Half blocked the link conducts half as much, but the loss in it is taken from the whole
    conductance: half of the energy that goes into it is gone. *)
Theorem C144_blocked_refuted : exists (o : cout R) p v, q_gnd (o_k o) = false /\ o_pval o = true /\ o_g o = 1 /\ o_ceff o = 1 /\ open_part (o_k o) = 1 / 2 /\
  runs 2 o = true /\ o_rev o = false /\ supply_of o = Volts v /\
  let x := at_volts (out_drive sqrt 2 o) p in out_flux x = 1 /\ v * out_flux x = 2 /\ snd (input_power x) * within Reps (o_ceff o) 1 = 1.
Proof.
  exists (conv_ex true VOLTAGE 0), 0, 2. pose proof Reps_pos as EP. pose proof Reps_small as ES. pose proof big_pos as BP.
  assert (OP : open_part (o_k (conv_ex true VOLTAGE 0)) = 1 / 2) by (unfold open_part; cbn; rewrite within_at; lra).
  do 4 (split; [reflexivity|]). split; [exact OP|]. do 3 (split; [reflexivity|]). cbv zeta.
  pose proof (C144_delivers 2 (conv_ex true VOLTAGE 0) 0) as D. cbv zeta in D. destruct D as (_ & _ & D); [cbn; lra|]. specialize (D eq_refl).
  assert (SV : supply_of (conv_ex true VOLTAGE 0) = Volts 2) by reflexivity. rewrite SV in D. destruct D as [D _]. change (o_rev (conv_ex true VOLTAGE 0)) with false in D.
  unfold conducts in D. rewrite OP in D. change (o_g (conv_ex true VOLTAGE 0)) with 1 in D. rewrite within_at in D by lra. rewrite Rmax_right in D by lra.
  assert (F : out_flux (at_volts (out_drive sqrt 2 (conv_ex true VOLTAGE 0)) 0) = 1) by lra. split; [exact F|]. split; [rewrite F; ring|].
  pose proof (C144_energy (at_volts (out_drive sqrt 2 (conv_ex true VOLTAGE 0)) 0)) as E.
  pose proof (volts_facts 2 (conv_ex true VOLTAGE 0) 0) as X. cbv zeta in X.
  destruct X as (X4 & X5 & X1 & X2 & X3). rewrite X1, X2, X3, F in E. cbv zeta in E. destruct E as (_ & _ & _ & E & _); [rewrite X4; reflexivity|rewrite X5; reflexivity|cbn; lra|]. change (o_g (conv_ex true VOLTAGE 0)) with 1 in E. rewrite E. field.
Qed.
Print Assumptions C144_blocked_refuted.

(** An open converter that runs. *)
Example C144_start : q_gnd (o_k (conv_ex false VOLTAGE 1)) = false /\ o_pval (conv_ex false VOLTAGE 1) = true /\ runs 2 (conv_ex false VOLTAGE 1) = true /\ supply_of (conv_ex false VOLTAGE 1) = Volts 2 /\ open_part (o_k (conv_ex false VOLTAGE 1)) = 1 /\ Reps <= o_g (conv_ex false VOLTAGE 1) <= 10 ^ 15.
Proof. pose proof Reps_small as ES. pose proof big_pos as BP. repeat split; cbn [conv_ex o_g]; lra. Qed.
(** A power regulator, 2 W into 1 ohm. *)
Example C144_start_power : let o := o_with_k (conv_ex false POWER 1) (q_src (o_k (conv_ex false POWER 1)) 1) in
  runs 2 o = true /\ Reps < q_p (o_k o) /\ Reps < out_flux o /\ 0 < o_set o /\ exists p, out_flux (at_volts (out_drive sqrt 2 o) p) = p / 1.
Proof.
  cbv zeta. set (o := o_with_k (conv_ex false POWER 1) _). pose proof Reps_small as ES.
  assert (F : out_flux o = 1) by (unfold out_flux; rewrite nmaxR'; cbn; rnum; rewrite Rmax_right; lra).
  split; [reflexivity|]. split; [cbn; lra|]. split; [rewrite F; lra|]. split; [cbn; lra|].
  assert (KP : 0 < / 2 ^ 23) by (apply Rinv_0_lt_compat, pow_lt; lra). exists (sqrt 2 / (1 + / 2 ^ 23)).
  pose proof (C144_delivers 2 o (sqrt 2 / (1 + / 2 ^ 23))) as D. cbv zeta in D. destruct D as (_ & _ & D); [cbn; lra|]. specialize (D eq_refl).
  assert (SV : supply_of o = Amps (sqrt 2)).
  { unfold supply_of. rewrite F. cbn [o o_with_k conv_ex o_type o_lim o_set o_k q_src kr q_p supplied]. unfold load_of. destruct (Rlt_dec Reps 1); [|lra]. destruct (Rlt_dec 0 2); [|lra].
    replace (1 / 1) with 1 by field. destruct (Rlt_dec 0 1); [|lra]. f_equal. unfold open_part. cbn. replace (2 / 1) with 2 by field. ring. }
  rewrite SV in D. destruct D as [D _]. change (o_rev o) with false in D. rewrite D. set (k := / 2 ^ 23) in *. clearbody k. pose proof (sqrt_pos 2) as SP.
  rewrite Rmax_right; [field; lra|]. replace (sqrt 2 - sqrt 2 / (1 + k) * k) with (sqrt 2 / (1 + k)) by (field; lra). apply Rmult_le_pos; [exact SP|]. left. apply Rinv_0_lt_compat. lra.
Qed.

(** ** C146: the input side *)
Section INPUT.
Variable table : option (R -> R).

(** The efficiency of the conversion, with what is left of it by a blockage. *)
Definition efficiency (i : cin R) : R :=
  within Reps (match table with Some f => f (n_pin i / Rmax Reps (n_ref i)) | None => 1 end * open_part (n_k i)) 1.
Definition shut (i : cin R) : bool := q_malf (n_k i) && Rleb 1 (q_malfv (n_k i)).
Definition in_runs (i : cin R) : bool := n_en i && negb (n_over i || (t_trip (n_ov i) || t_trip (n_uv i))).
(** The current a load of [p] watts takes from [v] volts, with under-voltage limit [l]. *)
Definition drawn (p v l : R) : R := if Rlt_dec Reps l then p / Rmax v (99 / 100 * l) else if Rlt_dec Reps v then p / v else 0.

Lemma load_is (i : cin R) : let x := in_load table i in
  n_eff x = efficiency i /\ n_loss x = n_pin i / efficiency i - n_pin i /\ q_a (n_k x) = 0 /\ n_pin x = n_pin i /\ n_vin x = n_vin i /\ q_p (n_k x) = q_p (n_k i) /\ q_gnd (n_k x) = q_gnd (n_k i) /\
  q_w (n_k x) = Rmin 0 (if in_runs i then if Rlt_dec (q_p (n_k i)) 0 then q_w (n_k i) else - drawn (n_pin i / efficiency i) (n_vin i) (t_limit (n_uv i)) else 0).
Proof.
  cbv zeta. unfold in_load.
  assert (E : limit_range neps (let e := match table with Some f => f (n_pin i /~ nmax neps (n_ref i)) | None => n1 end in if q_malf (n_k i) then e *~ (n1 -~ limit_range n0 (q_malfv (n_k i)) n1) else e) n1 = efficiency i).
  { pose proof Reps_small as ES. rewrite limit_within by (rnum; lra). unfold efficiency, open_part. rewrite nmaxR'. rewrite <- limit_within with (lo := 0) (hi := 1) by lra. cbv zeta. rnum. f_equal. destruct (q_malf (n_k i)), table; ring. }
  cbv zeta in E |- *. rewrite E. set (e := efficiency i). clearbody e.
  assert (A : forall k : port R, q_a (if negb (q_a k ==~ n0) then q_adm k n0 true else k) = 0).
  { intro k. change (q_a k ==~ n0) with (Reqb (q_a k) 0). destruct (Reqb_spec (q_a k) 0) as [Z|Z]; cbn [negb]; [exact Z|reflexivity]. }
  assert (B : forall k : port R, q_p (if negb (q_a k ==~ n0) then q_adm k n0 true else k) = q_p k /\ q_gnd (if negb (q_a k ==~ n0) then q_adm k n0 true else k) = q_gnd k) by (intro k; destruct (negb _); split; reflexivity).
  cbn [n_with_k n_with_eff n_eff n_loss n_k n_pin n_vin q_src q_a q_w q_p q_gnd]. destruct (B (n_k i)) as [-> ->]. rewrite A, nminR'.
  split; [reflexivity|]. split; [reflexivity|]. do 5 (split; [reflexivity|]). change (@n0 R RNum) with 0. change (@nopp R RNum) with Ropp. f_equal.
  unfold in_runs, n_off. destruct (n_en i && _); [|lra]. change (q_p (n_k i) <~ 0) with (Rltb (q_p (n_k i)) 0). unfold Rltb. destruct (Rlt_dec (q_p (n_k i)) 0); [lra|]. f_equal. unfold drawn.
  change (neps <~ t_limit (n_uv i)) with (Rltb Reps (t_limit (n_uv i))). change (neps <~ n_vin i) with (Rltb Reps (n_vin i)). unfold Rltb. destruct (Rlt_dec Reps (t_limit (n_uv i))).
  - rewrite nmaxR'. assert (D : (ndec 99 (-2) : R) = 99 / 100) by (rnum; unfold Rdec; cbn; lra). rewrite D. reflexivity.
  - destruct (Rlt_dec Reps (n_vin i)); reflexivity.
Qed.
Lemma eff_range i : Reps <= efficiency i <= 1.
Proof. pose proof Reps_small as ES. apply within_range. lra. Qed.

(** What the input side takes from its node after a minor step, when the potential stays. *)
Theorem C146_draws : forall i : cin R, q_gnd (n_k i) = false -> 0 <= n_pin i ->
  let x := fst (in_minor table i None) in let y := in_flows x in
  let V := q_p (n_k i) in let L := t_limit (n_uv i) in let I := q_flux (n_k y) in
  0 <= I /\ q_a (n_k y) = 0 /\ q_power (n_k y) = - I * V /\ Reps <= n_eff y <= 1 /\ 0 <= n_loss y /\ n_pin y = n_pin i /\
  (in_runs i = false -> I = 0) /\
  (in_runs i = true -> V < 0 -> q_w (n_k i) <= 0 -> I = - q_w (n_k i)) /\
  (in_runs i = true -> shut i = false -> 0 <= V ->
     (Reps < V -> L <= Reps \/ 99 / 100 * L <= V -> I * V * n_eff y = n_pin i /\ I * V = n_pin i + n_loss y) /\
     (V <= Reps -> L <= Reps -> I = 0) /\
     (Reps < L -> V < 99 / 100 * L -> I * V <= n_pin i + n_loss y /\ I * (99 / 100 * L) * n_eff y = n_pin i)).
Proof.
  intros i G PP. cbv zeta. unfold in_minor. rewrite G. cbn [fst]. set (j := n_with_power _ _ _).
  assert (J : n_pin j = n_pin i /\ q_p (n_k j) = q_p (n_k i) /\ n_uv j = n_uv i /\ in_runs j = in_runs i /\ q_w (n_k j) = q_w (n_k i) /\ q_gnd (n_k j) = false /\ n_vin j = input_voltage i) by (unfold j; repeat split; exact G).
  pose proof (load_is j) as X. cbv zeta in X. set (x := in_load table j) in *. clearbody x. pose proof (eff_range j) as ER. clearbody j.
  destruct J as (J1 & J2 & J3 & J4 & J5 & J6 & J7). rewrite J1, J2, J3, J4, J5, J6, J7 in X. destruct X as (X1 & X2 & X3 & X4 & X5 & X6 & X7 & X8).
  set (e := efficiency j) in *. clearbody e. clear J1 J2 J3 J4 J5 J6 J7.
  assert (Y : let y := in_flows x in q_flux (n_k y) = - q_w (n_k x) /\ q_a (n_k y) = q_a (n_k x) /\ q_power (n_k y) = - (- q_w (n_k x)) * q_p (n_k x) /\ n_eff y = n_eff x /\ n_loss y = n_loss x /\ n_pin y = n_pin x).
  { cbv zeta. unfold in_flows. rewrite X7. cbn [n_with_k n_with_volt n_k n_eff n_loss n_pin q_flow q_flux q_a q_power]. rewrite X3. rnum. repeat split; ring. }
  cbv zeta in Y. destruct Y as (Y1 & Y2 & Y3 & Y4 & Y5 & Y6). rewrite Y1, Y2, Y3, Y4, Y5, Y6, X1, X2, X3, X4, X6. clear Y1 Y2 Y3 Y4 Y5 Y6 X1 X2 X3 X4 X5 X6 X7.
  pose proof Reps_pos as EP. set (l := n_pin i / e) in *. assert (LE : l * e = n_pin i) by (unfold l; field; lra). assert (LG : n_pin i <= l) by nra. clearbody l.
  assert (DP : forall v u, 0 <= drawn l v u).
  { intros v u. unfold drawn. destruct (Rlt_dec Reps u); [|destruct (Rlt_dec Reps v); [|lra]]; apply Rmult_le_pos; try lra; left; apply Rinv_0_lt_compat; [|lra]. pose proof (Rmax_r v (99 / 100 * u)). lra. }
  split; [rewrite X8; pose proof (Rmin_l 0 (if in_runs i then if Rlt_dec (q_p (n_k i)) 0 then q_w (n_k i) else - drawn l (input_voltage i) (t_limit (n_uv i)) else 0)); lra|].
  split; [reflexivity|]. split; [ring|]. split; [exact ER|]. split; [lra|]. split; [reflexivity|].
  split; [intro H; rewrite X8, H, Rmin_left; lra|]. split.
  { intros H1 H2 H3. rewrite X8, H1. destruct (Rlt_dec (q_p (n_k i)) 0); [|lra]. rewrite Rmin_right; lra. }
  intros H1 H2 H3. rewrite X8, H1. destruct (Rlt_dec (q_p (n_k i)) 0); [lra|].
  assert (IV : input_voltage i = q_p (n_k i)).
  { unfold input_voltage, n_off. unfold in_runs in H1. apply andb_true_iff in H1 as [A B]. apply negb_true_iff, orb_false_iff in B as [_ B]. rewrite A, B.
    change (q_malf (n_k i) && (n1 <=~ q_malfv (n_k i))) with (shut i). rewrite H2. cbn [negb orb]. rewrite nmaxR'. rnum. apply Rmax_right. exact H3. }
  rewrite IV. set (V := q_p (n_k i)) in *. set (L := t_limit (n_uv i)) in *. clearbody V L. pose proof (DP V L) as DV. rewrite Rmin_right by lra. rewrite Ropp_involutive.
  split; [|split].
  - intros A B. assert (Q : drawn l V L = l / V). { unfold drawn. destruct (Rlt_dec Reps L); [|destruct (Rlt_dec Reps V); [reflexivity|lra]]. rewrite Rmax_left by lra. reflexivity. }
    rewrite Q. replace (l / V * V) with l by (field; lra). lra.
  - intros A B. unfold drawn. destruct (Rlt_dec Reps L); [lra|]. destruct (Rlt_dec Reps V); lra.
  - intros A B. assert (Q : drawn l V L = l / (99 / 100 * L)). { unfold drawn. destruct (Rlt_dec Reps L); [|lra]. rewrite Rmax_right by lra. reflexivity. }
    rewrite Q in *. assert (Z : l / (99 / 100 * L) * (99 / 100 * L) = l) by (field; lra). set (d := l / (99 / 100 * L)) in *. clearbody d. split; nra.
Qed.
End INPUT.
Print Assumptions C146_draws.

(** Both sides agree on the power and on the voltage after the minor steps of both, whichever leads. *)
Section AGREE.
Context {T : Type} {N : Num T}.
Variable sq : T -> T.
Variable table : option (T -> T).
Lemma power_twice (o : cout T) v w : snd (input_power (o_with_src (o_with_volt (fst (input_power o)) v w) n0)) = snd (input_power o).
Proof.
  unfold input_power. destruct (q_gnd (o_k o) || negb (o_pval o)) eqn:B.
  - cbn [fst snd o_with_src o_with_volt o_with_loss o_with_k o_k o_pval q_flow q_gnd]. rewrite B. reflexivity.
  - cbn [fst snd o_with_src o_with_volt o_with_loss o_with_k o_k o_pval o_g o_ceff q_flow q_gnd q_p q_a q_w]. rewrite B. reflexivity.
Qed.
Lemma power_src (o : cout T) : snd (input_power (o_with_src o n0)) = snd (input_power o).
Proof. unfold input_power. change (q_gnd (o_k (o_with_src o n0)) || negb (o_pval (o_with_src o n0))) with (q_gnd (o_k o) || negb (o_pval o)). destruct (_ || _); reflexivity. Qed.
Lemma drive_keeps m (o : cout T) : let x := out_drive sq m o in o_pin x = o_pin o /\ o_vin x = o_vin o /\ o_loss x = o_loss o /\ q_power (o_k x) = q_power (o_k o) /\ q_flux (o_k x) = out_flux o.
Proof.
  cbv zeta. unfold out_drive. set (o1 := if Nat.eqb 1 m then _ else _). assert (E : o_pin o1 = o_pin o /\ o_vin o1 = o_vin o /\ o_loss o1 = o_loss o /\ o_k o1 = o_k o) by (unfold o1; destruct (Nat.eqb 1 m); repeat split).
  clearbody o1. destruct E as (E1 & E2 & E3 & E4). destruct (if _ && _ && _ then _ else _) as [[g v] c]. cbn. destruct (n0 <~ _); cbn; unfold out_flux; rewrite E4; auto.
Qed.
Lemma load_keeps (i : cin T) : n_pin (in_load table i) = n_pin i /\ n_vin (in_load table i) = n_vin i.
Proof. split; reflexivity. Qed.
Theorem C146_agree : forall m (i : cin T) (o : cout T), q_gnd (n_k i) = false -> q_gnd (o_k o) = false ->
  (n_lead i = true -> o_lead o = false ->
   exists i1 o1 i2 o2, in_minor table i (Some o) = (i1, Some o1) /\ out_minor sq m o1 (Some i1) = (o2, Some i2) /\
     n_pin i2 = snd (input_power o) /\ o_pin o2 = n_pin i2 /\ o_vin o2 = n_vin i2 /\ n_vin i2 = input_voltage i) /\
  (n_lead i = false -> o_lead o = true ->
   exists i1 o1 i2 o2, out_minor sq m o (Some i) = (o1, Some i1) /\ in_minor table i1 (Some o1) = (i2, Some o2) /\
     n_pin i2 = snd (input_power o) /\ o_pin o2 = n_pin i2 /\ o_vin o2 = n_vin i2 /\ n_vin i2 = input_voltage i).
Proof.
  intros m i o G1 G2. split; intros L1 L2.
  - unfold in_minor at 1. rewrite G1. change (n_lead (n_with_volt i (input_voltage i))) with (n_lead i). rewrite L1.
    pose proof (power_twice o) as PT. pose proof (input_power_facts o) as PF.
    assert (LD : o_lead (fst (input_power o)) = false) by (unfold input_power; destruct (_ || _); exact L2).
    destruct (input_power o) as [o' p]. cbn [fst snd] in *. destruct PF as [PF1 PF2].
    set (q := o_with_volt o' (input_voltage i) (o_vval o')). specialize (PT (input_voltage i) (o_vval o')). change (o_with_volt o' (input_voltage i) (o_vval o')) with q in PT.
    assert (LQ : o_lead (fst (input_power (o_with_src q n0))) = false /\ o_vin (fst (input_power (o_with_src q n0))) = input_voltage i) by (unfold input_power; destruct (_ || _); split; (exact LD || reflexivity)).
    destruct (input_power (o_with_src q n0)) as [q' p'] eqn:QE. cbn [fst snd] in PT, LQ. subst p'. destruct LQ as [LQ LV]. 
    do 4 eexists. split; [reflexivity|]. change (n_vin (n_with_volt i (input_voltage i))) with (input_voltage i). fold q. unfold out_minor.
    change (q_gnd (o_k (o_with_src q n0))) with (q_gnd (o_k o')). rewrite PF1, G2, QE. change (o_lead (o_with_power q' p)) with (o_lead q'). rewrite LQ.
    split; [reflexivity|]. match goal with |- context [out_drive sq m ?z] => destruct (drive_keeps m z) as (D1 & D2 & _); rewrite D1, D2 end.
    split; [reflexivity|]. split; [reflexivity|]. split; [exact LV|reflexivity].
  - unfold out_minor. change (q_gnd (o_k (o_with_src o n0))) with (q_gnd (o_k o)). rewrite G2.
    pose proof (power_src o) as PS. assert (LQ : o_lead (fst (input_power (o_with_src o n0))) = true) by (unfold input_power; destruct (_ || _); exact L2).
    destruct (input_power (o_with_src o n0)) as [q p]. cbn [fst snd] in *. change (o_lead (o_with_power q p)) with (o_lead q). rewrite LQ.
    do 4 eexists. split; [reflexivity|]. unfold in_minor. change (q_gnd (n_k (n_with_power i p (n_pval i)))) with (q_gnd (n_k i)). rewrite G1.
    set (j := n_with_volt _ _). change (n_lead j) with (n_lead i). rewrite L1. split; [reflexivity|].
    match goal with |- context [out_drive sq m ?z] => destruct (drive_keeps m z) as (D1 & D2 & _); rewrite D1, D2 end.
    split; [exact PS|]. split; [reflexivity|]. split; reflexivity.
Qed.
End AGREE.
Print Assumptions C146_agree.

(** What a pair takes in is what it delivers and the losses of both sides. *)
Theorem C146_balance : forall table m (i : cin R) (o : cout R), q_gnd (n_k i) = false -> q_gnd (o_k o) = false ->
  o_pval o = true -> Reps <= o_g o -> 0 <= q_p (o_k o) -> n_lead i = false -> o_lead o = true ->
  in_runs i = true -> shut i = false -> Reps < q_p (n_k i) -> t_limit (n_uv i) <= Reps \/ 99 / 100 * t_limit (n_uv i) <= q_p (n_k i) ->
  exists i1 o1 i2 o2, out_minor sqrt m o (Some i) = (o1, Some i1) /\ in_minor table i1 (Some o1) = (i2, Some o2) /\
    let y := in_flows i2 in q_flux (n_k y) * q_p (n_k i) = out_flux o * q_p (o_k o) + o_loss o2 + n_loss y /\ 0 <= o_loss o2 /\ 0 <= n_loss y.
Proof.
  intros table m i o G1 G2 PV GE PO L1 L2 RU SH V U.
  destruct (C146_agree sqrt table m i o G1 G2) as [_ A]. destruct (A L1 L2) as (i1 & o1 & i2 & o2 & A1 & A2 & A3 & _). exists i1, o1, i2, o2. split; [exact A1|]. split; [exact A2|]. cbv zeta.
  pose proof (C144_energy o G2 PV GE) as E. cbv zeta in E. destruct E as (_ & _ & _ & E1 & E2 & E3). specialize (E3 PO).
  unfold out_minor in A1. change (q_gnd (o_k (o_with_src o n0))) with (q_gnd (o_k o)) in A1. rewrite G2 in A1.
  assert (QS : o_lead (fst (input_power (o_with_src o n0))) = true /\ o_loss (fst (input_power (o_with_src o n0))) = o_loss (fst (input_power o)) /\ snd (input_power (o_with_src o n0)) = snd (input_power o)).
  { unfold input_power. change (q_gnd (o_k (o_with_src o n0)) || negb (o_pval (o_with_src o n0))) with (q_gnd (o_k o) || negb (o_pval o)). destruct (_ || _); repeat split; exact L2. }
  destruct (input_power (o_with_src o n0)) as [q p]. cbn [fst snd] in QS. destruct QS as (QL & QO & QP). change (o_lead (o_with_power q p)) with (o_lead q) in A1. rewrite QL in A1. injection A1 as A1 A1'.
  assert (PP : 0 <= p) by (rewrite QP; assert (0 <= out_flux o) by (unfold out_flux; rewrite nmaxR'; rnum; apply Rmax_l); nra).
  assert (LO : o_loss o1 = o_loss (fst (input_power o))).
  { rewrite <- A1. match goal with |- context [out_drive sqrt m ?z] => destruct (drive_keeps sqrt m z) as (_ & _ & D3 & _); rewrite D3 end. exact QO. }
  pose proof (C146_draws table i1) as D. rewrite <- A1' in D. change (q_gnd (n_k (n_with_power i p (n_pval i)))) with (q_gnd (n_k i)) in D. specialize (D G1 PP). cbv zeta in D. rewrite A1' in D.
  assert (M : o2 = o1 /\ in_flows i2 = n_with_power (in_flows (fst (in_minor table i1 None))) p (o_pval o1)).
  { rewrite <- A1' in A2. unfold in_minor in A2. change (q_gnd (n_k (n_with_power i p (n_pval i)))) with (q_gnd (n_k i)) in A2. rewrite G1 in A2. cbv zeta in A2.
    match type of A2 with context [n_lead ?j] => change (n_lead j) with (n_lead i) in A2 end. rewrite L1 in A2. injection A2 as B1 B2. split; [symmetry; exact B2|]. rewrite <- B1, <- A1'.
    unfold in_minor. change (q_gnd (n_k (n_with_power i p (n_pval i)))) with (q_gnd (n_k i)). rewrite G1. cbn [fst]. unfold in_flows.
    match goal with |- context [q_gnd (n_k (in_load table ?j))] => destruct (load_facts table j) as [-> _] end.
    match goal with |- context [q_gnd (n_k (in_load table ?j))] => destruct (load_facts table j) as [-> _] end.
    cbn [n_with_power n_with_volt n_k]. rewrite G1. reflexivity. }
  destruct M as [-> M]. rewrite M. cbn [n_with_power n_k n_loss]. destruct D as (_ & _ & _ & _ & D5 & D6 & _ & _ & D9).
  assert (RI : in_runs i1 = true /\ shut i1 = false /\ q_p (n_k i1) = q_p (n_k i) /\ n_uv i1 = n_uv i /\ n_pin i1 = p) by (rewrite <- A1'; repeat split; assumption).
  destruct RI as (R1 & R2 & R3 & R4 & R5). pose proof Reps_pos as EP. specialize (D9 R1 R2).
  rewrite R3, R4, R5 in D9. destruct D9 as [D9 _]; [lra|]. destruct D9 as [_ D9]; [exact V|exact U|]. rewrite LO, D9, E2, <- QP. split; [ring|]. split; [|exact D5]. rewrite QP, <- E2. exact E3.
Qed.
Print Assumptions C146_balance.

(** Wholly blocked, the input side still counts with the under-voltage limit as the voltage, and with an
    efficiency of almost nothing: it draws more than 10^15 A for a load of one watt. *)
Definition in_ex (malf : bool) : cin R :=
  mkin (mkport false 2 0 0 false 0 0 0 malf 1) true false 0 1 true 2 true (trip_init 1 1%Z false) (trip_init 0 1%Z false) 1 0 false false.
Theorem C146_blocked_refuted : exists i : cin R, q_malf (n_k i) = true /\ q_malfv (n_k i) = 1 /\ n_pin i = 1 /\
  10 ^ 15 < q_flux (n_k (in_flows (fst (in_minor None i None)))).
Proof.
  exists (in_ex true). do 3 (split; [reflexivity|]). unfold in_minor. cbn [in_ex n_k q_gnd]. fold (in_ex true). cbn [fst]. set (j := n_with_power _ _ _).
  pose proof (load_is None j) as X. cbv zeta in X. destruct X as (_ & _ & X3 & _ & _ & _ & X7 & X8). unfold in_flows. rewrite X7. cbn [j n_with_power n_with_volt n_k in_ex q_gnd]. fold (in_ex true).
  cbn [n_with_k n_with_volt n_k q_flow q_flux]. rewrite X3, X8. pose proof Reps_pos as EP. pose proof Reps_small as ES.
  assert (E : efficiency None j = Reps).
  { unfold efficiency, open_part. cbn. rewrite (within_at 0 1 1) by lra. unfold within, Rmin, Rmax. repeat destruct (Rle_dec _ _); lra. }
  assert (I : n_vin j = 0).
  { cbn [j n_with_power n_with_volt n_vin]. unfold input_voltage. cbn [in_ex n_en n_k q_malf q_malfv]. change (n1 <=~ 1) with (Rleb 1 1). replace (Rleb 1 1) with true by (symmetry; apply Rleb_true; lra). destruct (negb true || _ || _) eqn:Q; [reflexivity|cbn in Q; discriminate Q]. }
  rewrite E, I. change (in_runs j) with true. change (q_p (n_k j)) with 2. change (n_pin j) with 1. change (t_limit (n_uv j)) with 1. cbv iota. destruct (Rlt_dec 2 0); [lra|]. unfold drawn. destruct (Rlt_dec Reps 1); [|lra].
  rewrite Rmax_right by lra. assert (P : 10 ^ 15 < / Reps). { rewrite <- (Rinv_inv (10 ^ 15)). apply Rinv_lt_contravar; [|lra]. apply Rmult_lt_0_compat; [exact EP|lra]. }
  assert (Q : 1 / Reps / (99 / 100 * 1) = / Reps * (100 / 99)) by (field; lra). rewrite Q. set (z := / Reps) in *. clearbody z. pose proof big_pos. rewrite Rmin_right by nra. rnum. nra.
Qed.
Print Assumptions C146_blocked_refuted.
Example C146_start : q_gnd (n_k (in_ex false)) = false /\ in_runs (in_ex false) = true /\ shut (in_ex false) = false /\ 0 <= n_pin (in_ex false) /\ Reps < q_p (n_k (in_ex false)) /\ 99 / 100 * t_limit (n_uv (in_ex false)) <= q_p (n_k (in_ex false)).
Proof. pose proof Reps_small as ES. repeat split; cbn; lra. Qed.

(** A solution in which the input side runs a load from no voltage is not accepted; when it is rejected
    and not for the other side's sake, the side no longer runs. *)
Lemma check_facts d (t : @trip R) r v step : let '(t', r', _) := check_for_trip d t r v step in
  (t_trip t' = true -> t_trip t = true \/ r' = REJECT) /\ (r' = REJECT -> r = REJECT \/ t_trip t' = true) /\ (r = REJECT -> r' = REJECT) /\ (r' = CONFIRM -> r = CONFIRM).
Proof.
  unfold check_for_trip. set (u := if t_inh t then reset_trip t else t).
  assert (U : t_trip u = true -> t_trip t = true) by (unfold u; destruct (t_inh t); [discriminate|auto]). clearbody u.
  destruct (negb _); [destruct (_ || is_trip_condition _ _ _); [destruct (_ || (_ =? _)%Z); [|destruct r]|]|]; cbn [t_with t_trip]; intuition congruence.
Qed.
Theorem C146_overload : forall cast step sv (i : cin R) mo, q_gnd (n_k i) = false -> (0 < step)%Z ->
  in_runs i = true -> 0 < n_pin i -> q_p (n_k i) <= 0 ->
  let x := in_confirm cast step sv i mo in
  snd x <> CONFIRM /\ (snd x = REJECT -> n_pval (fst x) = true -> in_runs (fst x) = false).
Proof.
  intros cast step sv i mo G ST RU P V. cbv zeta. unfold in_confirm. rewrite G. destruct (Z.eqb_spec 0 step); [lia|]. unfold in_self. set (v := sv _). clearbody v.
  unfold in_runs in RU. rewrite andb_true_iff, negb_true_iff, !orb_false_iff in RU. destruct RU as (EN & OV & T1 & T2). rewrite EN.
  pose proof (check_facts GreaterThan (n_ov i) CONFIRM v step) as F1. destruct (check_for_trip GreaterThan (n_ov i) CONFIRM v step) as [[ov r1] x1].
  pose proof (check_facts LessThan (n_uv i) r1 v step) as F2. destruct (check_for_trip LessThan (n_uv i) r1 v step) as [[uv r2] x2].
  set (j := n_with_trips i uv ov (n_reset i) (n_over i)). destruct F1 as (A1 & A2 & A3 & A4), F2 as (B1 & B2 & B3 & B4).
  assert (FIN : forall (j : cin R) r, r <> CONFIRM -> (r = REJECT -> in_runs j = false) ->
    let x := (let i := match mo with Some o => n_with_power (n_with_valid j (negb (is_rej r))) (n_pin (n_with_valid j (negb (is_rej r)))) (o_pval o) | None => n_with_valid j (negb (is_rej r)) end in
              (i, if n_pval i then r else REJECT)) in
    snd x <> CONFIRM /\ (snd x = REJECT -> n_pval (fst x) = true -> in_runs (fst x) = false)).
  { intros k r NC RJ. cbv zeta. cbn [fst snd]. split.
    - destruct (n_pval _); [exact NC|discriminate].
    - intros Q PV. rewrite PV in Q. specialize (RJ Q). destruct mo; exact RJ. }
  destruct r2.
  - apply FIN; [discriminate|]. intros _. unfold in_runs, j. cbn [n_with_trips n_ov n_uv n_over n_en].
    destruct (B2 eq_refl) as [Q|Q]; [destruct (A2 Q) as [W|W]; [discriminate|]|]; rewrite ?W, ?Q, ?orb_true_r; apply andb_false_r.
  - assert (N1 : t_trip ov = false) by (destruct (t_trip ov); [|reflexivity]; destruct (A1 eq_refl) as [Q|Q]; [congruence|]; specialize (B4 eq_refl); congruence).
    assert (N2 : t_trip uv = false) by (destruct (t_trip uv); [|reflexivity]; destruct (B1 eq_refl); congruence).
    assert (OJ : n_off j || n_over j = false) by (unfold n_off, j; cbn [n_with_trips n_ov n_uv n_over]; rewrite N1, N2, OV; reflexivity).
    rewrite OJ. cbn [negb]. cbn [n_with_volt n_pin n_k j n_with_trips]. change (n0 <~ n_pin i) with (Rltb 0 (n_pin i)). change (q_p (n_k i) <=~ n0) with (Rleb (q_p (n_k i)) 0).
    rewrite Rltb_true, Rleb_true by assumption. cbn [andb]. apply FIN; [discriminate|]. intros _. unfold in_runs. cbn [n_with_trips n_over n_with_volt n_en]. apply andb_false_r.
  - apply FIN; discriminate.
Qed.
Print Assumptions C146_overload.

(** Which configurations start, and as what. *)
Theorem C146_starts : forall table k prio uv ov en vin pin ref,
  match in_init table k prio uv ov en vin pin ref with
  | Some i => (uv <= ov \/ ov = 0) /\ (forall f, table = Some f -> Reps <= ref /\ forall a, (a <= 10)%nat -> Reps <= f (INR a / 10) <= 1) /\
              n_eff i = 1 /\ in_runs i = en /\ n_pin i = pin /\ n_vin i = vin /\ q_p (n_k i) = vin
  | None => (ov < uv /\ ov <> 0) \/ exists f, table = Some f /\ (ref < Reps \/ exists a, (a <= 10)%nat /\ ~ Reps <= f (INR a / 10) <= 1)
  end.
Proof.
  intros table k prio uv ov en vin pin ref. unfold in_init, in_valid.
  change (ov <~ uv) with (Rltb ov uv). change (ov ==~ n0) with (Reqb ov 0). change (ref <~ neps) with (Rltb ref Reps).
  assert (IR : forall x : R, is_in_range neps x n1 = true <-> Reps <= x <= 1).
  { intro x. unfold is_in_range. change (x <~ neps) with (Rltb x Reps). change (n1 <~ x) with (Rltb 1 x). rnum. rcases; split; intros; try discriminate; try reflexivity; try lra. }
  assert (AT : forall a, ndec 1 (-1) *~ ndec (Z.of_nat a) 0 = INR a / 10) by (intro a; rnum; unfold Rdec; rewrite <- INR_IZR_INZ; cbn; lra).
  assert (FA : forall f : R -> R, forallb (fun i => is_in_range neps (f (ndec 1 (-1) *~ ndec (Z.of_nat i) 0)) n1) (seq 0 11) = true <-> forall a, (a <= 10)%nat -> Reps <= f (INR a / 10) <= 1).
  { intro f. rewrite forallb_forall. split.
    - intros H a L. rewrite <- AT. apply IR, H. apply in_seq. lia.
    - intros H a L. apply IR. rewrite AT. apply H. apply in_seq in L. lia. }
  assert (OK : forall b : bool, (b = true -> uv <= ov \/ ov = 0) -> (b = false -> ov < uv /\ ov <> 0) ->
    match (if b && match table with Some f => forallb (fun i => is_in_range neps (f (ndec 1 (-1) *~ ndec (Z.of_nat i) 0)) n1) (seq 0 11) && negb (Rltb ref Reps) | None => true end
           then Some (mkin (q_pot k vin) en false ref pin true vin true (trip_init uv prio false) (trip_init ov prio false) n1 n0 false false) else None) with
    | Some i => (uv <= ov \/ ov = 0) /\ (forall f, table = Some f -> Reps <= ref /\ forall a, (a <= 10)%nat -> Reps <= f (INR a / 10) <= 1) /\
                n_eff i = 1 /\ in_runs i = en /\ n_pin i = pin /\ n_vin i = vin /\ q_p (n_k i) = vin
    | None => (ov < uv /\ ov <> 0) \/ exists f, table = Some f /\ (ref < Reps \/ exists a, (a <= 10)%nat /\ ~ Reps <= f (INR a / 10) <= 1)
    end).
  { intros b B1 B2. destruct b; cbn [andb]; [|left; auto]. specialize (B1 eq_refl). destruct table as [f|].
    - destruct (forallb _ _) eqn:F; cbn [andb].
      + destruct (Rltb_spec ref Reps) as [Q|Q]; cbn [negb]; [right; exists f; auto|]. split; [exact B1|]. split.
        * intros g E. injection E as <-. split; [lra|]. exact (proj1 (FA f) F).
        * unfold in_runs. cbn. rewrite andb_true_r. repeat split.
      + right. exists f. split; [reflexivity|]. right.
        assert (H : exists a, In a (seq 0 11) /\ is_in_range neps (f (ndec 1 (-1) *~ ndec (Z.of_nat a) 0)) n1 = false).
        { revert F. generalize (seq 0 11) as l. induction l as [|a l IH]; [discriminate|]. cbn [forallb]. destruct (is_in_range neps (f (ndec 1 (-1) *~ ndec (Z.of_nat a) 0)) n1) eqn:E.
          - intro F. destruct (IH F) as (c & C1 & C2). exists c. split; [right; exact C1|exact C2].
          - intros _. exists a. split; [left; reflexivity|exact E]. }
        destruct H as (a & H1 & H2). exists a. split; [apply in_seq in H1; lia|]. intro H. rewrite <- AT in H. apply IR in H. congruence.
    - split; [exact B1|]. split; [discriminate|]. unfold in_runs. cbn. rewrite andb_true_r. repeat split. }
  apply OK; destruct (Rltb_spec ov uv) as [A|A], (Reqb_spec ov 0) as [B|B]; cbn [andb negb]; intro H; try discriminate H; auto; left; lra.
Qed.
Print Assumptions C146_starts.
