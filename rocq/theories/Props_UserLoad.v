(** C147-C149: what user loads draw, duty cycles, shorts. *)
From Coq Require Import Floats.
From Coq Require Import Reals Lra Lia List Arith Bool ZArith.
From Verif Require Import Num Ord Loops MathUtil Props_Math BasicLinks Trip Spec_Valve Props_Valve Props_Thermal UserLoad.
Import ListNotations.
Local Open Scope R_scope.

Lemma maxres : (max_resistance : R) = 100000000. Proof. unfold max_resistance. rnum. unfold Rdec. cbn. lra. Qed.
Lemma minres : (min_resistance : R) = 1 / 10. Proof. unfold min_resistance. rnum. unfold Rdec. cbn. lra. Qed.
Lemma defres : (default_resistance : R) = 1000000. Proof. unfold default_resistance. rnum. unfold Rdec. cbn. lra. Qed.
Lemma dec99 : (ndec 99 (-2) : R) = 99 / 100. Proof. rnum. unfold Rdec. cbn. lra. Qed.

(** ** C147 *)
(** The voltage a load gets when it is offered [v]. *)
Definition supplied (v : R) (l : load R) : R :=
  match d_magic l with Some m => m | None => if d_bf l || d_blown l then 0 else v end.
Definition healthy {T} (l : load T) : Prop := d_oc l = None /\ d_op l = None.
(** It draws nothing, and shows the network a resistance of a hundred megohms. *)
Definition idle (l : load R) : Prop := d_i l = 0 /\ d_p l = 0 /\ d_r l = 100000000.
(** What the mode asks of it: a resistance or a power. *)
Definition asked (l : load R) : R := match d_mode l with Standby => d_stby l | _ => d_norm l end.
(** The resistance a resistive load can have. *)
Definition ohms (r : R) : R := if Rlt_dec 0 r then within (1 / 10) r 100000000 else 100000000.

Lemma begin_facts v (l : load R) : let b := load_begin v l in
  d_v b = supplied v l /\ d_valid b = Rltb (d_uv l) (supplied v l) /\ d_i b = 0 /\ d_p b = 0 /\ d_r b = 100000000 /\
  d_cp b = d_cp l /\ d_norm b = d_norm l /\ d_stby b = d_stby l /\ d_uv b = d_uv l /\ d_mode b = d_mode l /\
  d_oc b = d_oc l /\ d_op b = d_op l /\ d_blown b = d_bf l || d_blown l.
Proof.
  unfold load_begin, supplied. cbn [d_v d_valid d_i d_p d_r d_cp d_norm d_stby d_uv d_mode d_oc d_op d_blown with_load].
  rewrite maxres. repeat split; try reflexivity; destruct (d_magic l), (d_bf l || d_blown l); reflexivity.
Qed.
Lemma resist_of_ohms (r : R) : resist_of r = ohms r.
Proof.
  unfold resist_of, ohms. change (n0 <~ r) with (Rltb 0 r). rewrite limit_within; [|rewrite minres, maxres; lra]. rewrite minres, maxres.
  destruct (Rltb_spec 0 r), (Rlt_dec 0 r); lra.
Qed.
Lemma ohms_pos r : 1 / 10 <= ohms r <= 100000000.
Proof. unfold ohms, within, Rmin, Rmax. destruct (Rlt_dec 0 r); [|lra]. destruct (Rle_dec r _); destruct (Rle_dec _ _); lra. Qed.
Lemma resist_power_pos (r : R) (l : load R) : 0 < r ->
  resist_power r l = Some (with_load l (d_blown l) (d_v l) (d_valid l) (d_v l / r) (d_v l * d_v l / r) r).
Proof.
  intro P. unfold resist_power. change (n0 <=~ r) with (Rleb 0 r). change (n0 ==~ r) with (Reqb 0 r).
  destruct (Rleb_spec 0 r); [|lra]. destruct (Reqb_spec 0 r); [lra|]. reflexivity.
Qed.
Lemma cp_power_pos (p : R) (l : load R) : 0 < p ->
  cp_power p l = Some (with_load l (d_blown l) (d_v l) (d_valid l) (p / d_v l) p
                        (Rmax (d_v l) (99 / 100 * d_uv l) * Rmax (d_v l) (99 / 100 * d_uv l) / p)).
Proof.
  intro P. unfold cp_power. change (n0 <~ p) with (Rltb 0 p). destruct (Rltb_spec 0 p); [|lra].
  rewrite nmaxR, dec99. reflexivity.
Qed.
Lemma cp_power_zero (l : load R) :
  cp_power 0 l = Some (with_load l (d_blown l) (d_v l) (d_valid l) (0 / d_v l) 0 (d_r l)).
Proof. unfold cp_power. rnum. destruct (Rltb_spec 0 0); [lra|]. reflexivity. Qed.
Lemma cp_power_neg (p : R) (l : load R) : p < 0 -> cp_power p l = None.
Proof. intro P. unfold cp_power. rnum. destruct (Rltb_spec 0 p); [lra|]. destruct (Rltb_spec p 0); [|lra]. reflexivity. Qed.

(** Without enough voltage, or switched off, it draws nothing. *)
Theorem C147_idle : forall v (l : load R),
  supplied v l <= d_uv l \/ (healthy l /\ d_mode l = Off) ->
  exists l', load_step v l = Some l' /\ idle l' /\ d_v l' = supplied v l.
Proof.
  intros v l H. pose proof (begin_facts v l) as B. cbv zeta in B. unfold load_step. set (b := load_begin v l) in *. clearbody b.
  destruct B as (Bv & Bx & Bi & Bp & Br & Bc & Bn & Bs & Bu & Bm & Bo & Bq & _).
  assert (E : (if d_cp b then cp_calc b else resist_calc b) = Some b).
  { destruct H as [H|[[H1 H2] H3]].
    - assert (X : d_valid b = false) by (rewrite Bx; destruct (Rltb_spec (d_uv l) (supplied v l)); [lra|reflexivity]).
      unfold cp_calc, resist_calc. rewrite X. destruct (d_cp b); reflexivity.
    - unfold cp_calc, resist_calc. rewrite Bo, Bq, Bm, H1, H2, H3. destruct (d_cp b), (d_valid b); reflexivity. }
  rewrite E. exists b. repeat split; assumption.
Qed.
(** A resistive load has the resistance of its mode, within its bounds. *)
Theorem C147_resistive : forall v (l : load R), d_cp l = false -> healthy l -> d_mode l <> Off ->
  d_uv l < supplied v l ->
  exists l', load_step v l = Some l' /\ d_v l' = supplied v l /\ d_r l' = ohms (asked l) /\
    d_i l' = supplied v l / ohms (asked l) /\ d_p l' = supplied v l * d_i l'.
Proof.
  intros v l C [H1 H2] M U. pose proof (begin_facts v l) as B. cbv zeta in B. unfold load_step. set (b := load_begin v l) in *. clearbody b.
  destruct B as (Bv & Bx & Bi & Bp & Br & Bc & Bn & Bs & Bu & Bm & Bo & Bq & _).
  assert (X : d_valid b = true) by (rewrite Bx; destruct (Rltb_spec (d_uv l) (supplied v l)); [reflexivity|lra]).
  assert (E : resist_calc b = resist_power (ohms (asked l)) b).
  { unfold resist_calc. rewrite X, Bo, Bq, H1, H2, Bm. cbn [negb]. unfold asked.
    destruct (d_mode l); [congruence| |]; rewrite resist_of_ohms, ?Bn, ?Bs; reflexivity. }
  rewrite Bc, C, E, resist_power_pos by (pose proof (ohms_pos (asked l)); lra).
  eexists. split; [reflexivity|]. cbn [d_v d_r d_i d_p with_load]. rewrite Bv. repeat split. unfold Rdiv. ring.
Qed.
(** A constant power load draws the power of its mode. *)
Theorem C147_constant : forall v (l : load R), d_cp l = true -> healthy l -> d_mode l <> Off ->
  0 <= d_uv l < supplied v l -> 0 <= asked l ->
  exists l', load_step v l = Some l' /\ d_v l' = supplied v l /\ d_p l' = asked l /\
    d_i l' = asked l / supplied v l /\
    (0 < asked l -> d_r l' = supplied v l * supplied v l / asked l) /\
    (asked l = 0 -> d_r l' = 100000000).
Proof.
  intros v l C [H1 H2] M U A. pose proof (begin_facts v l) as B. cbv zeta in B. unfold load_step. set (b := load_begin v l) in *. clearbody b.
  destruct B as (Bv & Bx & Bi & Bp & Br & Bc & Bn & Bs & Bu & Bm & Bo & Bq & _).
  assert (X : d_valid b = true) by (rewrite Bx; destruct (Rltb_spec (d_uv l) (supplied v l)); [reflexivity|lra]).
  assert (E : cp_calc b = cp_power (asked l) b).
  { unfold cp_calc. rewrite X, Bo, Bq, H1, H2, Bm. cbn [negb]. unfold asked.
    destruct (d_mode l); [congruence| |]; rewrite ?Bn, ?Bs; reflexivity. }
  rewrite Bc, C, E. destruct (Req_dec (asked l) 0) as [Z|Z].
  - rewrite Z, cp_power_zero. eexists. split; [reflexivity|]. cbn [d_v d_r d_i d_p with_load]. rewrite Bv, Br.
    split; [reflexivity|]. split; [reflexivity|]. split; [reflexivity|]. split; [lra|reflexivity].
  - rewrite cp_power_pos by lra. eexists. split; [reflexivity|]. cbn [d_v d_r d_i d_p with_load]. rewrite Bv, Bu.
    replace (Rmax (supplied v l) (99 / 100 * d_uv l)) with (supplied v l) by (unfold Rmax; destruct (Rle_dec _ _); lra).
    repeat split; lra.
Qed.
(** An overridden current is drawn from the voltage at hand by both kinds, an overridden power as well;
    the current comes first, and a negative one is refused. *)
Theorem C147_override : forall v (l : load R), 0 <= d_uv l < supplied v l ->
  (forall c, d_oc l = Some c -> 0 < c ->
    exists l', load_step v l = Some l' /\ d_i l' = c /\ d_p l' = supplied v l * c /\ d_r l' = supplied v l / c) /\
  (forall p, d_oc l = None -> d_op l = Some p -> 0 < p ->
    exists l', load_step v l = Some l' /\ d_p l' = p /\ d_i l' = p / supplied v l /\
      d_r l' = supplied v l * supplied v l / p) /\
  (forall x, x < 0 -> d_oc l = Some x \/ (d_oc l = None /\ d_op l = Some x) -> load_step v l = None).
Proof.
  intros v l U. pose proof (begin_facts v l) as B. cbv zeta in B. unfold load_step. set (b := load_begin v l) in *. clearbody b.
  destruct B as (Bv & Bx & Bi & Bp & Br & Bc & Bn & Bs & Bu & Bm & Bo & Bq & _).
  assert (X : d_valid b = true) by (rewrite Bx; destruct (Rltb_spec (d_uv l) (supplied v l)); [reflexivity|lra]).
  assert (Mx : Rmax (supplied v l) (99 / 100 * d_uv l) = supplied v l) by (unfold Rmax; destruct (Rle_dec _ _); lra).
  unfold cp_calc, resist_calc. rewrite X. cbn [negb]. rewrite Bo, Bq, Bc. set (u := supplied v l) in *. clearbody u.
  split; [|split].
  - intros c E P. rewrite E. change (n0 <=~ c) with (Rleb 0 c). change (n0 ==~ c) with (Reqb 0 c).
    destruct (Rleb_spec 0 c); [|lra]. destruct (Reqb_spec 0 c); [lra|]. rewrite Bv. change (u /~ c) with (u / c). change (u *~ c) with (u * c).
    assert (0 < u / c) by (apply Rdiv_lt_0_compat; lra). assert (0 < u * c) by (apply Rmult_lt_0_compat; lra).
    destruct (d_cp l).
    + rewrite cp_power_pos by assumption. eexists. split; [reflexivity|]. cbn [d_v d_r d_i d_p with_load]. rewrite Bv, Bu, Mx.
      repeat split; field; lra.
    + rewrite resist_power_pos by assumption. eexists. split; [reflexivity|]. cbn [d_v d_r d_i d_p with_load]. rewrite Bv.
      repeat split; field; lra.
  - intros p E E' P. rewrite E, E'. change (n0 <=~ p) with (Rleb 0 p). change (n0 ==~ p) with (Reqb 0 p).
    destruct (Rleb_spec 0 p); [|lra]. destruct (Reqb_spec 0 p); [lra|]. rewrite Bv. change (u *~ u /~ p) with (u * u / p).
    assert (0 < u * u / p) by (apply Rdiv_lt_0_compat; nra).
    destruct (d_cp l).
    + rewrite cp_power_pos by assumption. eexists. split; [reflexivity|]. cbn [d_v d_r d_i d_p with_load]. rewrite Bv, Bu, Mx.
      repeat split.
    + rewrite resist_power_pos by assumption. eexists. split; [reflexivity|]. cbn [d_v d_r d_i d_p with_load]. rewrite Bv.
      repeat split; field; lra.
  - intros x L [E|[E E']]; rewrite E, ?E'; change (n0 <=~ x) with (Rleb 0 x); destruct (Rleb_spec 0 x); try lra; destruct (d_cp l); reflexivity.
Qed.
(** Whatever the settings: an accepted step leaves power = voltage x current, and the current the network
    sees through the resistance is the load's own, up to what a hundred megohms draw. *)
Theorem C147_laws : forall v (l l' : load R), 0 <= d_uv l -> 0 <= supplied v l -> load_step v l = Some l' ->
  d_v l' = supplied v l /\ d_p l' = d_v l' * d_i l' /\ 0 <= d_i l' /\ 0 < d_r l' /\
  d_i l' <= d_v l' / d_r l' <= d_i l' + d_v l' / 100000000 /\
  (0 < d_i l' -> d_v l' / d_r l' = d_i l').
Proof.
  intros v l l' U0 S0. pose proof (begin_facts v l) as B. cbv zeta in B. unfold load_step. set (b := load_begin v l) in *. clearbody b.
  destruct B as (Bv & Bx & Bi & Bp & Br & Bc & Bn & Bs & Bu & Bm & Bo & Bq & _). set (u := supplied v l) in *. clearbody u.
  assert (IDLE : forall x : load R, d_v x = u -> d_i x = 0 -> d_p x = 0 -> d_r x = 100000000 ->
    d_v x = u /\ d_p x = d_v x * d_i x /\ 0 <= d_i x /\ 0 < d_r x /\
    d_i x <= d_v x / d_r x <= d_i x + d_v x / 100000000 /\ (0 < d_i x -> d_v x / d_r x = d_i x)).
  { intros x -> -> -> ->. assert (0 <= u / 100000000) by (apply Rmult_le_pos; lra). repeat split; lra. }
  assert (RP : 0 < u -> forall r, 0 <= r -> resist_power r b = Some l' ->
    d_v l' = u /\ d_p l' = d_v l' * d_i l' /\ 0 <= d_i l' /\ 0 < d_r l' /\
    d_i l' <= d_v l' / d_r l' <= d_i l' + d_v l' / 100000000 /\ (0 < d_i l' -> d_v l' / d_r l' = d_i l')).
  { intros Pu r P. unfold resist_power. change (n0 <=~ r) with (Rleb 0 r). change (n0 ==~ r) with (Reqb 0 r).
    destruct (Rleb_spec 0 r); [|lra]. rewrite defres. set (r' := if Reqb 0 r then 1000000 else r).
    assert (Pr : 0 < r') by (unfold r'; destruct (Reqb_spec 0 r); lra). clearbody r'.
    injection 1 as <-. cbn [d_v d_r d_i d_p with_load]. rewrite Bv.
    change (u /~ r') with (u / r'). change (u *~ u /~ r') with (u * u / r').
    assert (0 < u / r') by (apply Rdiv_lt_0_compat; lra). assert (0 < u / 100000000) by (apply Rdiv_lt_0_compat; lra).
    repeat split; try lra; unfold Rdiv; ring. }
  assert (CP : d_uv l < u -> forall p, 0 <= p -> cp_power p b = Some l' ->
    d_v l' = u /\ d_p l' = d_v l' * d_i l' /\ 0 <= d_i l' /\ 0 < d_r l' /\
    d_i l' <= d_v l' / d_r l' <= d_i l' + d_v l' / 100000000 /\ (0 < d_i l' -> d_v l' / d_r l' = d_i l')).
  { intros Pu p P. destruct (Req_dec p 0) as [->|Z].
    - rewrite cp_power_zero. injection 1 as <-. apply IDLE; cbn [d_v d_r d_i d_p with_load]; try assumption; [|reflexivity].
      unfold Rdiv. ring.
    - rewrite cp_power_pos by lra. injection 1 as <-. cbn [d_v d_r d_i d_p with_load]. rewrite Bv, Bu.
      replace (Rmax u (99 / 100 * d_uv l)) with u by (unfold Rmax; destruct (Rle_dec _ _); lra).
      assert (0 < u * u / p) by (apply Rdiv_lt_0_compat; nra). assert (0 < p / u) by (apply Rdiv_lt_0_compat; lra).
      assert (0 < u / 100000000) by (apply Rdiv_lt_0_compat; lra).
      replace (u / (u * u / p)) with (p / u) by (field; lra).
      repeat split; try lra. field. lra. }
  intro H. assert (Nx : d_valid b = true -> d_uv l < u) by (rewrite Bx; destruct (Rltb_spec (d_uv l) u); [auto|discriminate]).
  destruct (d_valid b) eqn:X; [|unfold cp_calc, resist_calc in H; rewrite X in H; cbn [negb] in H;
    assert (Some b = Some l') as Hs by (destruct (d_cp b); exact H); injection Hs as <-; apply IDLE; assumption].
  specialize (Nx eq_refl).
  destruct (d_cp b).
  - unfold cp_calc in H. rewrite X in H. cbn [negb] in H. destruct (d_oc b) as [c|]; [|destruct (d_op b) as [p|]].
    + change (n0 <=~ c) with (Rleb 0 c) in H. destruct (Rleb_spec 0 c); [|discriminate]. apply (CP Nx _) in H; [exact H|].
      change (0 <= d_v b * c). rewrite Bv. apply Rmult_le_pos; lra.
    + change (n0 <=~ p) with (Rleb 0 p) in H. destruct (Rleb_spec 0 p); [|discriminate]. apply (CP Nx p); assumption.
    + destruct (d_mode b); [injection H as <-; apply IDLE; assumption| |].
      * destruct (Rlt_dec (d_norm b) 0) as [L|L]; [rewrite cp_power_neg in H by exact L; discriminate|]. apply (CP Nx (d_norm b)); [lra|exact H].
      * destruct (Rlt_dec (d_stby b) 0) as [L|L]; [rewrite cp_power_neg in H by exact L; discriminate|]. apply (CP Nx (d_stby b)); [lra|exact H].
  - assert (Pu : 0 < u) by lra.
    unfold resist_calc in H. rewrite X in H. cbn [negb] in H. destruct (d_oc b) as [c|]; [|destruct (d_op b) as [p|]].
    + change (n0 <=~ c) with (Rleb 0 c) in H. change (n0 ==~ c) with (Reqb 0 c) in H. destruct (Rleb_spec 0 c); [|discriminate]. apply (RP Pu _) in H; [exact H|].
      destruct (Reqb_spec 0 c); [rewrite maxres; lra|]. change (0 <= d_v b / c). rewrite Bv. apply Rlt_le, Rdiv_lt_0_compat; lra.
    + change (n0 <=~ p) with (Rleb 0 p) in H. change (n0 ==~ p) with (Reqb 0 p) in H. destruct (Rleb_spec 0 p); [|discriminate]. apply (RP Pu _) in H; [exact H|].
      destruct (Reqb_spec 0 p); [rewrite maxres; lra|]. change (0 <= d_v b * d_v b / p). rewrite Bv. apply Rlt_le, Rdiv_lt_0_compat; nra.
    + destruct (d_mode b); [injection H as <-; apply IDLE; assumption| |]; rewrite resist_of_ohms in H.
      * apply (RP Pu _) in H; [exact H|]. pose proof (ohms_pos (d_norm b)). lra.
      * apply (RP Pu _) in H; [exact H|]. pose proof (ohms_pos (d_stby b)). lra.
Qed.
(** So a load that is off, reporting no current, still loads the network. *)
Theorem C147_off_refuted : exists (l l' : load R), load_init true 10 0 20 0 Off 28 = Some l /\ load_step 28 l = Some l' /\
  d_i l' = 0 /\ d_p l' = 0 /\ 0 < d_v l' / d_r l'.
Proof.
  assert (I : load_init true 10 0 20 0 Off 28 = Some (mkload true 10 0 20 0 Off None None false None false 28 true 0 0 100000000)).
  { unfold load_init. change (ndec 1 7 : R) with (Rdec 1 7). replace (Rdec 1 7) with 10000000 by (unfold Rdec; cbn; lra). rewrite maxres. rnum. rcases. reflexivity. }
  rewrite I. eexists. destruct (C147_idle 28 (mkload true 10 0 20 0 Off None None false None false 28 true 0 0 100000000)) as (l' & E & (A & B & C) & D).
  { right. repeat split. }
  exists l'. split; [reflexivity|]. split; [exact E|]. split; [exact A|]. split; [exact B|]. rewrite C, D. unfold supplied. cbn. lra.
Qed.
(** Accepted loads ask for something sensible. *)
Theorem C147_accepted : forall cp (norm stby uv fuse : R) m v l, load_init cp norm stby uv fuse m v = Some l ->
  0 <= d_norm l <= (if cp then 10000000 else 100000000) /\ 0 <= d_stby l <= (if cp then 10000000 else 100000000) /\
  d_norm l = norm /\ d_stby l = stby /\ d_cp l = cp /\ healthy l /\ d_blown l = false /\ idle l.
Proof.
  intros cp norm stby uv fuse m v l H. unfold load_init in H. change (ndec 1 7 : R) with (Rdec 1 7) in H.
  replace (Rdec 1 7) with 10000000 in H by (unfold Rdec; cbn; lra). rewrite maxres in H.
  set (top := if cp then 10000000 else 100000000) in *. clearbody top. revert H. rnum.
  destruct (Rltb_spec norm 0), (Rltb_spec top norm), (Rltb_spec stby 0), (Rltb_spec top stby); cbn [orb]; try discriminate.
  injection 1 as <-. unfold healthy, idle. cbn [d_norm d_stby d_cp d_oc d_op d_blown d_i d_p d_r]. repeat split; lra.
Qed.
Print Assumptions C147_idle. Print Assumptions C147_resistive. Print Assumptions C147_constant.
Print Assumptions C147_override. Print Assumptions C147_laws. Print Assumptions C147_off_refuted. Print Assumptions C147_accepted.
Example C147_ex : exists l', load_step 28 (mkload true 10 2 20 0 Standby None None false None false 0 true 0 0 (100000000:R)) = Some l' /\ d_p l' = 2 /\ d_i l' = 2 / 28.
Proof.
  destruct (C147_constant 28 (mkload true 10 2 20 0 Standby None None false None false 0 true 0 0 (100000000:R))) as (l' & E & _ & P & I & _);
    unfold healthy, supplied, asked in *; cbn in *; try (split; reflexivity); try discriminate; try lra. exists l'. repeat split; assumption.
Qed.

(** ** C148 *)
(** One pass of the duty cycle, with any time step. *)
Theorem C148_step : forall dt (u : uload R), let u' := duty_step dt u in
  (u_period u <= 0 -> u' = u) /\
  (0 < u_period u ->
    u_timer u' = (if Rlt_dec (u_period u) (u_timer u + dt) then 0 else u_timer u + dt) /\
    (u_timer u' <= u_frac u * u_period u -> d_mode (u_load u') = On) /\
    (u_frac u * u_period u < u_timer u' -> d_mode (u_load u') = Off) /\
    (0 <= dt -> 0 <= u_timer u -> 0 <= u_timer u' <= u_period u)) /\
  u_frac u' = u_frac u /\ u_period u' = u_period u.
Proof.
  intros dt u u'. unfold u', duty_step. change (n0 <~ u_period u) with (Rltb 0 (u_period u)).
  change (u_timer u +~ dt) with (u_timer u + dt). change (u_period u <~ (u_timer u + dt)) with (Rltb (u_period u) (u_timer u + dt)).
  destruct (Rltb_spec 0 (u_period u)) as [P|P].
  2:{ split; [reflexivity|]. split; [lra|]. split; reflexivity. }
  cbn [u_timer u_load u_frac u_period with_mode d_mode].
  set (t := if Rltb (u_period u) (u_timer u + dt) then _ else _).
  assert (Ht : t = if Rlt_dec (u_period u) (u_timer u + dt) then 0 else u_timer u + dt).
  { unfold t. destruct (Rltb_spec (u_period u) (u_timer u + dt)), (Rlt_dec (u_period u) (u_timer u + dt)); lra || reflexivity. }
  clearbody t. split; [lra|]. split; [|split; reflexivity]. intros _.
  change (u_frac u <~ t /~ u_period u) with (Rltb (u_frac u) (t / u_period u)).
  assert (I : u_frac u < t / u_period u <-> u_frac u * u_period u < t).
  { split; intro H.
    - apply (Rmult_lt_compat_r (u_period u)) in H; [|exact P]. replace (t / u_period u * u_period u) with t in H by (field; lra). exact H.
    - apply (Rmult_lt_reg_r (u_period u)); [exact P|]. replace (t / u_period u * u_period u) with t by (field; lra). exact H. }
  split; [exact Ht|]. split; [|split].
  - intro H. destruct (Rltb_spec (u_frac u) (t / u_period u)) as [F|F]; [|reflexivity]. apply I in F. lra.
  - intro H. destruct (Rltb_spec (u_frac u) (t / u_period u)) as [F|F]; [reflexivity|]. apply I in H. lra.
  - intros D T0. rewrite Ht. destruct (Rlt_dec _ _); lra.
Qed.

Definition after (n : nat) (dt : R) (u : uload R) : uload R := Nat.iter n (duty_step dt) u.
Lemma after_fixed n dt u : u_frac (after n dt u) = u_frac u /\ u_period (after n dt u) = u_period u.
Proof.
  induction n as [|n [A B]]; [split; reflexivity|]. cbn [after Nat.iter nat_rect]. fold (after n dt u).
  change (nat_rect _ _ _ n) with (after n dt u).
  destruct (C148_step dt (after n dt u)) as (_ & _ & C & D). rewrite C, D. split; assumption.
Qed.
(** With a constant time step the timer counts the steps of a cycle of [N] steps. *)
Theorem C148_cycle : forall (N : nat) dt (u : uload R), 0 < dt -> 0 < u_period u -> u_timer u = 0 ->
  (INR N - 1) * dt <= u_period u < INR N * dt ->
  forall n, u_timer (after n dt u) = INR (n mod N) * dt /\
    (n <> 0%nat -> (INR (n mod N) * dt <= u_frac u * u_period u -> d_mode (u_load (after n dt u)) = On) /\
                   (u_frac u * u_period u < INR (n mod N) * dt -> d_mode (u_load (after n dt u)) = Off)).
Proof.
  intros N dt u D P T0 [L H]. assert (N0 : N <> 0%nat).
  { intros ->. cbn in H. lra. }
  assert (TM : forall n, u_timer (after n dt u) = INR (n mod N) * dt).
  { induction n as [|n IH].
    - rewrite Nat.mod_0_l by exact N0. cbn. lra.
    - change (after (S n) dt u) with (duty_step dt (after n dt u)).
      destruct (after_fixed n dt u) as [_ Fp].
      destruct (C148_step dt (after n dt u)) as (_ & G & _). rewrite Fp in G. destruct (G P) as (G1 & _). rewrite G1, IH. clear G G1.
      pose proof (Nat.mod_upper_bound n N N0) as B.
      assert (SM : (S n mod N = if Nat.eqb (S (n mod N)) N then 0 else S (n mod N))%nat).
      { pose proof (Nat.div_mod n N N0) as E. destruct (Nat.eqb_spec (S (n mod N)) N) as [Q|Q].
        - symmetry. apply (Nat.mod_unique (S n) N (S (n / N))); lia.
        - symmetry. apply (Nat.mod_unique (S n) N (n / N)); lia. }
      rewrite SM. replace (INR (n mod N) * dt + dt) with (INR (S (n mod N)) * dt) by (rewrite S_INR; lra).
      destruct (Nat.eqb_spec (S (n mod N)) N) as [Q|Q].
      + rewrite Q. destruct (Rlt_dec _ _); [cbn; lra|lra].
      + destruct (Rlt_dec _ _) as [X|X]; [|reflexivity]. exfalso.
        assert (INR (S (n mod N)) <= INR N - 1).
        { replace (INR N - 1) with (INR (N - 1)) by (rewrite minus_INR by lia; cbn; lra). apply le_INR. lia. }
        assert (INR (S (n mod N)) * dt <= (INR N - 1) * dt) by (apply Rmult_le_compat_r; lra). lra. }
  intro n. split; [apply TM|]. intro Z. destruct n as [|n]; [contradiction|].
  change (after (S n) dt u) with (duty_step dt (after n dt u)).
  destruct (after_fixed n dt u) as [Ff Fp].
  destruct (C148_step dt (after n dt u)) as (_ & G & _). rewrite Fp, Ff in G. destruct (G P) as (_ & G1 & G2 & _).
  pose proof (TM (S n)) as E. change (after (S n) dt u) with (duty_step dt (after n dt u)) in E. rewrite E in G1, G2. split; assumption.
Qed.
(** In any [N] steps in a row the load is on for [K] of them, [K] being within one step of its fraction. *)
Definition is_on (u : uload R) : bool := match d_mode (u_load u) with On => true | _ => false end.
Definition on_steps (s N : nat) (dt : R) (u : uload R) : nat :=
  length (List.filter (fun n => is_on (after n dt u)) (seq s N)).
Lemma count_shift (f : nat -> bool) N s : (forall n, (1 <= n)%nat -> f (n + N)%nat = f n) ->
  length (List.filter f (seq (S s) N)) = length (List.filter f (seq 1 N)).
Proof.
  intro P. induction s as [|s IH]; [reflexivity|]. rewrite <- IH. destruct N as [|N]; [reflexivity|].
  rewrite (seq_S N (S (S s))). cbn [seq]. rewrite filter_app, app_length. cbn [List.filter].
  replace (S (S s) + N)%nat with (S s + S N)%nat by lia. rewrite P by lia. destruct (f (S s)); cbn [length]; lia.
Qed.
Lemma count_below N : forall K, (K <= N)%nat -> length (List.filter (fun i => Nat.ltb i K) (seq 0 N)) = K.
Proof.
  induction N as [|N IH]; intros K L.
  - cbn. lia.
  - rewrite seq_S, filter_app, app_length. cbn [List.filter]. destruct (Nat.ltb_spec (0 + N) K) as [Q|Q]; cbn [length].
    + assert (K = S N) as -> by lia.
      rewrite (filter_ext_in _ (fun i => Nat.ltb i N)). { rewrite IH by lia. lia. }
      intros i Hi. apply in_seq in Hi. destruct (Nat.ltb_spec i (S N)), (Nat.ltb_spec i N); lia || reflexivity.
    + rewrite IH by lia. lia.
Qed.
Theorem C148_fraction : forall (N K : nat) dt (u : uload R), 0 < dt -> 0 < u_period u -> u_timer u = 0 ->
  0 <= u_frac u <= 1 ->
  (INR N - 1) * dt <= u_period u < INR N * dt ->
  (INR K - 1) * dt <= u_frac u * u_period u < INR K * dt ->
  (forall s, (1 <= s)%nat -> on_steps s N dt u = K) /\ Rabs (INR K - u_frac u * INR N) <= 1.
Proof.
  intros N K dt u D P T0 F [L H] [L' H']. assert (N0 : N <> 0%nat) by (intros ->; cbn in H; lra).
  pose proof (C148_cycle N dt u D P T0 (conj L H)) as C.
  assert (FP : 0 <= u_frac u * u_period u <= u_period u) by nra.
  assert (KN : (K <= N)%nat).
  { apply Nat.nlt_ge. intro Q. assert (INR N + 1 <= INR K) by (rewrite <- S_INR; apply le_INR; lia).
    assert (INR N * dt <= (INR K - 1) * dt) by (apply Rmult_le_compat_r; lra). lra. }
  assert (K0 : (1 <= K)%nat). { destruct K; [cbn in H'; lra|lia]. }
  assert (ON : forall n, (1 <= n)%nat -> is_on (after n dt u) = Nat.ltb (n mod N) K).
  { intros n Hn. destruct (C n) as [_ G]. destruct G as [G1 G2]; [lia|]. unfold is_on. destruct (Nat.ltb_spec (n mod N) K) as [Q|Q].
    - rewrite G1; [reflexivity|]. assert (INR (n mod N) <= INR K - 1).
      { replace (INR K - 1) with (INR (K - 1)) by (rewrite minus_INR by lia; cbn; lra). apply le_INR. lia. }
      assert (INR (n mod N) * dt <= (INR K - 1) * dt) by (apply Rmult_le_compat_r; lra). lra.
    - rewrite G2; [reflexivity|]. assert (INR K <= INR (n mod N)) by (apply le_INR; exact Q).
      assert (INR K * dt <= INR (n mod N) * dt) by (apply Rmult_le_compat_r; lra). lra. }
  split.
  - intros s Hs. unfold on_steps. destruct s as [|s]; [lia|]. rewrite count_shift.
    + transitivity (length (List.filter (fun n => Nat.ltb (n mod N) K) (seq 1 N))).
      { f_equal. apply filter_ext_in. intros n Hn. apply in_seq in Hn. apply ON. lia. }
      destruct N as [|M]; [contradiction|]. rewrite seq_S, filter_app, app_length. cbn [List.filter].
      replace ((1 + M) mod S M)%nat with 0%nat by (symmetry; apply Nat.mod_same; lia).
      rewrite <- (count_below (S M) K KN) at 2. cbn [seq List.filter]. destruct (Nat.ltb_spec 0 K); [|lia]. cbn [length].
      rewrite (filter_ext_in (fun n => Nat.ltb (n mod S M) K) (fun i => Nat.ltb i K) (seq 1 M)); [lia|].
      intros i Hi. apply in_seq in Hi. rewrite Nat.mod_small by lia. reflexivity.
    + intros n Hn. rewrite !ON by lia. f_equal. replace (n + N)%nat with (n + 1 * N)%nat by lia. apply Nat.mod_add. exact N0.
  - apply Rabs_le. split; apply (Rmult_le_reg_r dt); try exact D; nra.
Qed.
(** It is not its fraction exactly: half of ten seconds at one hertz is six steps in eleven, and a fraction
    of zero still turns the load on. *)
Theorem C148_exact_refuted : exists (u : uload R) dt N K,
  0 < dt /\ u_frac u = 1 / 2 /\ u_period u = 10 /\ (forall s, (1 <= s)%nat -> on_steps s N dt u = K) /\
  u_timer (after N dt u) = u_timer u /\ INR K <> u_frac u * INR N.
Proof.
  set (u := mkuload (1/2) 10 0 (mkload true 1 0 0 0 Off None None false None false 0 true 0 0 (100000000:R))).
  assert (H1 : (INR 11 - 1) * 1 <= 10 < INR 11 * 1) by (cbn; lra).
  assert (H2 : (INR 6 - 1) * 1 <= 1 / 2 * 10 < INR 6 * 1) by (cbn; lra).
  exists u, 1, 11%nat, 6%nat. split; [lra|]. split; [reflexivity|]. split; [reflexivity|].
  split; [apply (C148_fraction 11 6 1 u); unfold u; cbn [u_period u_timer u_frac]; try lra; assumption|].
  split; [|unfold u; cbn; lra].
  destruct (C148_cycle 11 1 u ltac:(lra) ltac:(unfold u; cbn; lra) eq_refl H1 11) as [E _]. rewrite E. unfold u. cbn. lra.
Qed.
Theorem C148_zero_refuted : exists (u : uload R) dt N,
  0 < dt /\ u_frac u = 0 /\ u_period u = 10 /\ (forall s, (1 <= s)%nat -> on_steps s N dt u = 1%nat).
Proof.
  set (u := mkuload 0 10 0 (mkload true 1 0 0 0 Off None None false None false 0 true 0 0 (100000000:R))).
  exists u, 1, 11%nat. split; [lra|]. split; [reflexivity|]. split; [reflexivity|].
  assert (H1 : (INR 11 - 1) * 1 <= 10 < INR 11 * 1) by (cbn; lra).
  assert (H2 : (INR 1 - 1) * 1 <= 0 * 10 < INR 1 * 1) by (cbn; lra).
  apply (C148_fraction 11 1 1 u); unfold u; cbn [u_period u_timer u_frac]; try lra; assumption.
Qed.
Print Assumptions C148_step. Print Assumptions C148_cycle. Print Assumptions C148_fraction.
Print Assumptions C148_exact_refuted. Print Assumptions C148_zero_refuted.

(** ** C149 *)
(** The first malfunction of the list constant power, constant current, initial power, initial current,
    resistance decides. *)
Theorem C149_short : forall v (h : short R), let g := h_g (short_step v h) in
  (forall p, h_cpow h = Some p -> Reps <= v * v -> g * (v * v) = Rabs p) /\
  (forall i, h_cpow h = None -> h_ccur h = Some i -> Reps <= Rabs v -> g * Rabs v = Rabs i) /\
  (forall r, h_cpow h = None -> h_ccur h = None -> h_ipow h = None -> h_icur h = None -> h_res h = Some r ->
     Reps <= r -> g * r = 1) /\
  (h_cpow h = None -> h_ccur h = None -> h_ipow h = None -> h_icur h = None -> h_res h = None -> g = 0) /\
  (0 <= h_g h -> 0 <= g).
Proof.
  intros v h g. pose proof Reps_pos as E0.
  assert (MX : forall x, 0 < Rmax x Reps) by (intro x; unfold Rmax; destruct (Rle_dec x Reps); lra).
  unfold g, short_step. cbn [h_g]. clear g.
  split; [|split; [|split; [|split]]].
  - intros p -> L. rewrite nmaxR. change (Rabs p / Rmax (v * v) Reps * (v * v) = Rabs p).
    rewrite Rmax_left by exact L. field. intros ->. lra.
  - intros i -> -> L. rewrite nmaxR. change (Rabs i / Rmax (Rabs v) Reps * Rabs v = Rabs i). rewrite Rmax_left by exact L. field. lra.
  - intros r -> -> -> -> -> L. rewrite nmaxR. change (1 / Rmax r Reps * r = 1). rewrite Rmax_left by exact L. field. lra.
  - intros -> -> -> -> ->. reflexivity.
  - intro G. assert (DP : forall a x, 0 <= a -> 0 <= a / Rmax x Reps).
    { intros a x A. unfold Rdiv. apply Rmult_le_pos; [exact A|]. apply Rlt_le, Rinv_0_lt_compat, MX. }
    destruct (h_cpow h) as [p|]. { rewrite nmaxR. apply DP, Rabs_pos. }
    destruct (h_ccur h) as [i|]. { rewrite nmaxR. apply DP, Rabs_pos. }
    destruct (h_ipow h) as [p|]. { destruct (negb _); [rewrite nmaxR; apply DP, Rabs_pos|exact G]. }
    destruct (h_icur h) as [i|]. { destruct (negb _); [rewrite nmaxR; apply DP, Rabs_pos|exact G]. }
    destruct (h_res h) as [r|]; [rewrite nmaxR; apply DP; apply Rle_0_1|apply Rle_refl].
Qed.
(** An initial power or current of no negative value sets a resistance at the first pass, which stays
    whatever the voltage does. *)
Definition shorts (l : list R) (h : short R) : short R := fold_left (fun h v => short_step v h) l h.
Lemma shorts_cons v l h : shorts (v :: l) h = shorts l (short_step v h). Proof. reflexivity. Qed.
Theorem C149_initial : forall v l (h : short R), Reps <= v * v -> Reps <= Rabs v ->
  h_cpow h = None -> h_ccur h = None ->
  (forall p, h_ipow h = Some p -> 0 <= p -> h_ppow h <> p ->
    h_g (shorts (v :: l) h) * (v * v) = p) /\
  (forall i, h_ipow h = None -> h_icur h = Some i -> 0 <= i -> h_pcur h <> i ->
    h_g (shorts (v :: l) h) * Rabs v = i).
Proof.
  intros v l h V2 V1 A B. split.
  - intros p P P0 N. rewrite shorts_cons.
    assert (K : forall l k, h_cpow k = None -> h_ccur k = None -> h_ipow k = Some p -> h_ppow k = p -> h_g (shorts l k) = h_g k).
    { induction l0 as [|x l0 IH]; intros k K1 K2 K3 K4; [reflexivity|]. rewrite shorts_cons, IH; unfold short_step; cbn [h_cpow h_ccur h_ipow h_ppow h_g]; rewrite ?K1, ?K2, ?K3; try reflexivity.
      change (nabs p ==~ h_ppow k) with (Reqb (Rabs p) (h_ppow k)). rewrite K4, (Rabs_pos_eq p P0). destruct (Reqb_spec p p); [reflexivity|congruence]. }
    rewrite K; unfold short_step; cbn [h_cpow h_ccur h_ipow h_ppow h_g]; rewrite ?A, ?B, ?P; try reflexivity.
    change (nabs p ==~ h_ppow h) with (Reqb (Rabs p) (h_ppow h)). rewrite (Rabs_pos_eq p P0) in *. destruct (Reqb_spec p (h_ppow h)); [congruence|]. cbn [negb].
    rewrite nmaxR. change (Rabs p / Rmax (v * v) Reps * (v * v) = p). rewrite Rmax_left by exact V2. rewrite (Rabs_pos_eq p P0). field. intros ->. pose proof Reps_pos. lra.
  - intros p Q P P0 N. rewrite shorts_cons.
    assert (K : forall l k, h_cpow k = None -> h_ccur k = None -> h_ipow k = None -> h_icur k = Some p -> h_pcur k = p -> h_g (shorts l k) = h_g k).
    { induction l0 as [|x l0 IH]; intros k K1 K2 K3 K4 K5; [reflexivity|]. rewrite shorts_cons, IH; unfold short_step; cbn [h_cpow h_ccur h_ipow h_ppow h_icur h_pcur h_g]; rewrite ?K1, ?K2, ?K3, ?K4; try reflexivity.
      change (nabs p ==~ h_pcur k) with (Reqb (Rabs p) (h_pcur k)). rewrite K5, (Rabs_pos_eq p P0). destruct (Reqb_spec p p); [reflexivity|congruence]. }
    rewrite K; unfold short_step; cbn [h_cpow h_ccur h_ipow h_ppow h_icur h_pcur h_g]; rewrite ?A, ?B, ?P, ?Q; try reflexivity.
    change (nabs p ==~ h_pcur h) with (Reqb (Rabs p) (h_pcur h)). rewrite (Rabs_pos_eq p P0) in *. destruct (Reqb_spec p (h_pcur h)); [congruence|]. cbn [negb].
    rewrite nmaxR. change (Rabs p / Rmax (Rabs v) Reps * Rabs v = p). rewrite Rmax_left by exact V1. rewrite (Rabs_pos_eq p P0). field. pose proof Reps_pos. lra.
Qed.
(** For a negative value (whose magnitude counts) it follows the voltage like the constant power short. *)
Theorem C149_negative_refuted : exists (h : short R) p v1 v2,
  h_cpow h = None /\ h_ccur h = None /\ h_ipow h = Some p /\ h_ppow h = 0 /\
  h_g (shorts [v1] h) = Rabs p / (v1 * v1) /\ h_g (shorts [v1; v2] h) = Rabs p / (v2 * v2) /\
  h_g (shorts [v1; v2] h) <> h_g (shorts [v1] h).
Proof.
  exists (mkshort None None (Some (-4)) None None 0 0 0), (-4), 1, 2. pose proof Reps_small as E.
  assert (G1 : h_g (shorts [1] (mkshort None None (Some (-4)) None None 0 0 0)) = Rabs (-4) / (1 * 1)).
  { unfold shorts, short_step. cbn [fold_left h_cpow h_ccur h_ipow h_ppow h_g]. rewrite nmaxR.
    change (nabs (-4) ==~ 0) with (Reqb (Rabs (-4)) 0). rewrite Rabs_left by lra. destruct (Reqb_spec (- -4) 0); [lra|]. cbn [negb].
    change (Rabs (-4) / Rmax (1 * 1) Reps = - -4 / (1 * 1)). rewrite Rmax_left, Rabs_left by lra. reflexivity. }
  assert (G2 : h_g (shorts [1; 2] (mkshort None None (Some (-4)) None None 0 0 0)) = Rabs (-4) / (2 * 2)).
  { unfold shorts. cbn [fold_left]. unfold short_step at 1. cbn [h_g h_ipow h_cpow h_ccur h_ppow short_step]. rewrite !nmaxR.
    change (nabs (-4) ==~ -4) with (Reqb (Rabs (-4)) (-4)). rewrite Rabs_left by lra. destruct (Reqb_spec (- -4) (-4)); [lra|]. cbn [negb].
    change (Rabs (-4) / Rmax (2 * 2) Reps = - -4 / (2 * 2)). rewrite Rmax_left, Rabs_left by lra. reflexivity. }
  repeat split; try assumption. rewrite G1, G2, Rabs_left by lra. lra.
Qed.
Print Assumptions C149_short. Print Assumptions C149_initial. Print Assumptions C149_negative_refuted.
Example C149_ex : h_g (shorts [2; 5; 1] (mkshort None None (Some 8) None None 0 0 0)) * (2 * 2) = 8.
Proof.
  pose proof Reps_small as E.
  destruct (C149_initial 2 [5; 1] (mkshort None None (Some 8) None None 0 0 0)) as [A _]; try reflexivity; try lra.
  - rewrite Rabs_pos_eq; lra.
  - apply A; [reflexivity|lra|cbn; lra].
Qed.
