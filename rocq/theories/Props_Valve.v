(** C134, C135: where a valve controller's position is and what decides it. *)
From Coq Require Import Floats.
From Coq Require Import Reals Lra Lia List Arith Bool ZArith.
From Verif Require Import Num Ord MathUtil Props_Math Valve Spec_Valve.
Import ListNotations.
Local Open Scope R_scope.

(** ** C134 *)
(** What can be done to a powered valve controller between its initialization and an update. *)
Inductive vop (T : Type) :=
| OMalf (stuck fail : bool) (failv : T) (man : bool)
| OPos (x : T) | OManual (flag : bool) (x : T) | OUpdate | OMove (x : T).
Arguments OMalf {T}. Arguments OPos {T}. Arguments OManual {T}. Arguments OUpdate {T}. Arguments OMove {T}.
Section RUN.
Context {T : Type} {N : Num T}.
Definition vrun1 (v : valve T) (o : vop T) : valve T :=
  match o with
  | OMalf a b c d => set_malf v a b c d
  | OPos x => set_position v x
  | OManual f x => set_manual v f x
  | OUpdate => valve_update v
  | OMove x => update_position v x
  end.
Definition vrun (v : valve T) (l : list (vop T)) : valve T := fold_left vrun1 l v.
(** The value that an update takes over. *)
Definition numbers (o : vop T) : bool :=
  match o with
  | OMalf _ _ x _ | OPos x | OManual _ x | OMove x => negb (nnan x)
  | OUpdate => true
  end.
(** The fields that the configuration fixes. *)
Definition fixed (v : valve T) : T * T * T * T := (v_min v, v_max v, v_bias v, v_scale v).
Lemma vrun_fixed l : forall v, fixed (vrun v l) = fixed v.
Proof. induction l as [|o l IH]; intro v; [reflexivity|]. cbn [vrun fold_left]. fold (vrun (vrun1 v o) l). rewrite IH. now destruct o. Qed.

Context {O : NumOrd T}.
Definition calm (v : valve T) : Prop := nnan (v_pos v) = false /\ nnan (v_mfailv v) = false /\ nnan (v_manv v) = false.
Lemma limit_num lo x hi : (lo <=~ hi) = true -> nnan x = false -> nnan (limit_range lo x hi) = false.
Proof. intros L X. destruct (C36_limit_range_in_range lo x hi L X) as [A B]. now destruct (le_nan _ _ A). Qed.
Lemma update_calm v x : (v_min v <=~ v_max v) = true -> calm v -> nnan x = false -> calm (update_position v x).
Proof.
  intros L (A & B & C) X. split; [|split; assumption]. unfold update_position. cbn [v_pos]. apply limit_num; [exact L|].
  destruct (v_mstuck v); [exact A|]. destruct (v_mfail v); [exact B|]. now destruct (_ && _).
Qed.
Lemma vrun_calm l : forall v, (v_min v <=~ v_max v) = true -> forallb numbers l = true -> calm v -> calm (vrun v l).
Proof.
  induction l as [|o l IH]; intros v L H C; [exact C|]. cbn [forallb] in H. apply andb_true_iff in H. destruct H as [H1 H2].
  cbn [vrun fold_left]. apply IH; [now destruct o|exact H2|].
  destruct C as (A & B & D). destruct o; cbn [numbers] in H1; try apply negb_true_iff in H1; cbn [vrun1].
  - repeat split; assumption.
  - repeat split; assumption.
  - repeat split; assumption.
  - apply update_calm; repeat split; assumption.
  - apply update_calm; repeat split; assumption.
Qed.

(** For reals and for binary64: whatever happened since the initialization, after an update
    the position is in the range and the limit flags tell whether it is at an end. *)
Theorem C134_range : forall c i named v l x,
  valve_init c i named = Some v -> (c_min c <~ c_max c) = true -> nnan (i_manv i) = false ->
  forallb numbers l = true -> nnan x = false ->
  let w := update_position (vrun v l) x in
  (c_min c <=~ v_pos w) = true /\ (v_pos w <=~ c_max c) = true /\
  v_lower w = (v_pos w <=~ c_min c) /\ v_upper w = (c_max c <=~ v_pos w) /\
  v_stuck w = v_mstuck w || v_mfail w.
Proof.
  intros c i named v l x I L NM NL NX. unfold valve_init in I. destruct (named && _) eqn:V; [|discriminate].
  apply andb_true_iff in V. destruct V as [_ V]. unfold valve_valid in V. apply andb_true_iff in V. destruct V as [V _].
  apply andb_true_iff in V. destruct V as [_ V]. unfold is_in_range in V. apply andb_true_iff in V. destruct V as [V1 V2].
  assert (LE : (c_min c <=~ c_max c) = true) by (eapply ord_le_trans; eassumption).
  set (v0 := mkvalve _ _ _ _ _ _ _ _ _ _ _ _ _ _ _) in I. injection I as <-.
  assert (C0 : calm v0). { split; [|split; [apply ord_0|exact NM]]. cbn. now destruct (le_nan _ _ V1). }
  assert (C : calm (vrun (valve_update v0) l)).
  { apply vrun_calm; [exact LE|exact NL|]. apply update_calm; [exact LE|exact C0|apply C0]. }
  assert (F := vrun_fixed l (valve_update v0)). set (u := vrun _ l) in *. clearbody u. injection F as F1 F2 _ _.
  assert (N1 : nnan (c_min c) = false) by now destruct (le_nan _ _ V1).
  assert (N2 : nnan (c_max c) = false) by now destruct (le_nan _ _ V2).
  cbv zeta. unfold update_position. cbn [v_pos v_lower v_upper v_stuck v_mstuck v_mfail]. rewrite F1, F2.
  cbn [v0 v_min v_max valve_update update_position] in *.
  set (p := if v_mstuck u then _ else _).
  assert (NP : nnan p = false).
  { unfold p. destruct C as (A & B & D). destruct (v_mstuck u); [exact A|]. destruct (v_mfail u); [exact B|]. now destruct (_ && _). }
  clearbody p. destruct (C36_limit_range_in_range _ _ _ LE NP) as [R1 R2].
  split; [exact R1|]. split; [exact R2|].
  destruct (C36_limit_range_values (c_min c) p (c_max c) LE) as (W1 & W2 & W3).
  assert (NL' : (c_max c <=~ c_min c) = false) by (rewrite ord_total, L by assumption; reflexivity).
  destruct (p <~ c_min c) eqn:E1.
  { rewrite (W2 eq_refl). rewrite (ord_total p) by assumption.
    assert (Z1 : (c_min c <~ p) = false).
    { destruct (c_min c <~ p) eqn:Q; [|reflexivity]. exfalso.
      assert (H : (p <=~ c_min c) = false) by (rewrite ord_total, Q by assumption; reflexivity).
      assert (H2 : (c_min c <=~ p) = false) by (rewrite ord_total, E1 by assumption; reflexivity).
      pose proof (ord_le_total p (c_min c) NP N1) as H3. rewrite H, H2 in H3. discriminate. }
    rewrite Z1. rewrite NL'. rewrite (le_refl (c_min c) N1). split; [reflexivity|]. split; [|reflexivity].
    destruct (c_max c <=~ p) eqn:Q; [|reflexivity]. exfalso.
    assert (H : (c_min c <=~ p) = true) by exact (ord_le_trans _ _ _ LE Q).
    rewrite ord_total, E1 in H by assumption. discriminate. }
  destruct (c_max c <~ p) eqn:E2.
  { rewrite (W3 eq_refl). rewrite NL'. rewrite (le_refl (c_max c) N2).
    assert (H : (p <=~ c_max c) = false) by (rewrite ord_total, E2 by assumption; reflexivity).
    assert (H2 : (c_max c <=~ p) = true).
    { pose proof (ord_le_total p (c_max c) NP N2) as H3. rewrite H in H3. exact H3. }
    rewrite H2. split; [|split; reflexivity].
    destruct (p <=~ c_min c) eqn:Q; [|reflexivity]. exfalso.
    assert (H4 : (p <=~ c_max c) = true) by exact (ord_le_trans _ _ _ Q LE). congruence. }
  rewrite W1; [split; [reflexivity|split; reflexivity]| |]; rewrite ord_total; try assumption; [rewrite E1|rewrite E2]; reflexivity.
Qed.
End RUN.
Print Assumptions C134_range.

(** In real numbers the flow area follows the position along the configured line. *)
Lemma limit_within (lo x hi : R) : lo <= hi -> limit_range lo x hi = within lo x hi.
Proof. intro L. unfold limit_range, within, nmin, nmax, Rmin, Rmax. rnum. destruct (Rltb_spec hi x), (Rle_dec x hi); try lra; rcases; destruct (Rle_dec _ _); lra. Qed.
Theorem C134_flow_area : forall (c : vcfg R) i named v l x,
  valve_init c i named = Some v -> c_min c < c_max c ->
  let w := update_position (vrun v l) x in
  v_fluid w = within 0 (c_minf c + (v_pos w - c_min c) / (c_max c - c_min c) * (c_maxf c - c_minf c)) 1 /\
  (0 <= c_minf c -> c_maxf c <= 1 ->
   c_minf c <= v_fluid w <= c_maxf c /\
   (v_lower w = true <-> v_fluid w = c_minf c) /\ (v_upper w = true <-> v_fluid w = c_maxf c)).
Proof.
  intros c i named v l x I L. cbv zeta.
  assert (NN : forall y : R, nnan y = false) by (intro y; unfold nnan; rnum; rewrite Reqb_true; auto).
  assert (RG := C134_range c i named v l x I). cbv zeta in RG.
  destruct RG as (R1 & R2 & R3 & R4 & _); auto.
  { rnum. now apply Rltb_true. }
  { clear. induction l as [|o l IH]; [reflexivity|]. cbn [forallb]. rewrite IH, andb_true_r.
    assert (NN : forall y : R, nnan y = false) by (intro y; unfold nnan; rnum; rewrite Reqb_true; auto).
    destruct o; cbn [numbers]; rewrite ?NN; reflexivity. }
  unfold valve_init in I. destruct (named && _) eqn:V; [|discriminate].
  apply andb_true_iff in V. destruct V as [_ V]. unfold valve_valid in V. apply andb_true_iff in V. destruct V as [V _].
  apply andb_true_iff in V. destruct V as [V _]. rnum. assert (FF : c_minf c < c_maxf c) by (revert V; destruct (Rleb_spec (c_maxf c) (c_minf c)); [discriminate|lra]).
  set (v0 := mkvalve _ _ _ _ _ _ _ _ _ _ _ _ _ _ _) in I. injection I as <-.
  assert (F := vrun_fixed l (valve_update v0)). set (u := vrun _ l) in *. clearbody u. injection F as F1 F2 F3 F4.
  cbn [v0 v_min v_max v_bias v_scale valve_update update_position] in *.
  set (w := update_position u x) in *.
  assert (E : v_fluid w = within 0 (c_minf c + (v_pos w - c_min c) / (c_max c - c_min c) * (c_maxf c - c_minf c)) 1).
  { unfold w, update_position. cbn [v_fluid v_pos]. rewrite F3, F4. rewrite limit_within by (rnum; lra). f_equal.
    rnum. field. lra. }
  split; [exact E|]. intros M0 M1. rewrite E. clear E.
  assert (P1 : c_min c <= v_pos w) by (revert R1; destruct (Rleb_spec (c_min c) (v_pos w)); [auto|discriminate]).
  assert (P2 : v_pos w <= c_max c) by (revert R2; destruct (Rleb_spec (v_pos w) (c_max c)); [auto|discriminate]).
  rewrite R3, R4. set (p := v_pos w) in *. clearbody p. clear - L FF M0 M1 P1 P2.
  set (d := c_max c - c_min c). set (q := (p - c_min c) / d). assert (D : 0 < d) by (unfold d; lra).
  assert (Q : p = c_min c + q * d) by (unfold q; field; lra).
  assert (Q0 : 0 <= q) by (unfold q; apply Rmult_le_pos; [lra|left; now apply Rinv_0_lt_compat]).
  assert (Q1 : q <= 1). { apply (Rmult_le_reg_r d); [exact D|]. unfold d at 2. lra. }
  set (m := c_maxf c - c_minf c). assert (MM : 0 < m) by (unfold m; lra).
  assert (A : within 0 (c_minf c + q * m) 1 = c_minf c + q * m).
  { unfold within, Rmin, Rmax. assert (0 <= q * m) by nra. assert (q * m <= m) by nra. unfold m in *. destruct (Rle_dec _ 1), (Rle_dec 0 _); lra. }
  rewrite A. split; [unfold m in *; split; nra|]. split.
  - destruct (Rleb_spec p (c_min c)) as [H|H]; split; try discriminate; try (intros _; reflexivity).
    + intros _. assert (q = 0) by nra. subst q. nra.
    + intro H2. exfalso. assert (q * m = 0) by lra. nra.
  - destruct (Rleb_spec (c_max c) p) as [H|H]; split; try discriminate; try (intros _; reflexivity).
    + intros _. assert (q = 1) by (unfold d in *; nra). unfold m. nra.
    + intro H2. exfalso. unfold m in H2. assert (q = 1) by nra. unfold d in *. nra.
Qed.
Print Assumptions C134_flow_area.

(** An accepted configuration whose minimum and maximum position are the same has no flow
    area. *)
Theorem C134_same_limits_refuted : exists (c : vcfg float) i v,
  valve_init c i true = Some v /\ nnan (v_fluid v) = true /\ nnan (v_fluid (valve_update v)) = true.
Proof.
  exists (mkvcfg 1 1 0 1)%float, (mkvinp 1 false 0)%float.
  eexists. split; [unfold valve_init; cbn [c_min]; vm_compute; reflexivity|]. split; vm_compute; reflexivity.
Qed.
Print Assumptions C134_same_limits_refuted.
Example ex_C134 : exists v : valve float,
  valve_init (mkvcfg 0 2 0 1)%float (mkvinp 1 false 0)%float true = Some v /\ v_fluid v = (0.5)%float /\
  v_pos (update_position (vrun v [OPos 7%float; OUpdate; OManual true (-3)%float]) 1%float) = 0%float /\
  v_lower (update_position (vrun v [OPos 7%float; OUpdate; OManual true (-3)%float]) 1%float) = true.
Proof. eexists. split; [vm_compute; reflexivity|]. repeat split; vm_compute; reflexivity. Qed.

(** Accepted are exactly the configurations and inputs in range. *)
Theorem C134_accepted : forall (c : vcfg R) i named,
  (exists v, valve_init c i named = Some v) <->
  named = true /\ c_minf c < c_maxf c /\ c_min c <= i_pos i <= c_max c /\
  (i_man i = true -> c_min c <= i_manv i <= c_max c).
Proof.
  intros c i named. unfold valve_init, valve_valid, is_in_range. rnum.
  destruct named; cbn [andb]; [|split; [intros [? ?]; discriminate|intros [? _]; discriminate]].
  destruct (Rleb_spec (c_maxf c) (c_minf c)) as [A|A]; cbn [negb andb].
  { split; [intros [? ?]; discriminate|intros (_ & ? & _); lra]. }
  destruct (Rleb_spec (c_min c) (i_pos i)) as [B|B]; cbn [andb]; [|split; [intros [? ?]; discriminate|intros (_ & _ & ? & _); lra]].
  destruct (Rleb_spec (i_pos i) (c_max c)) as [D|D]; cbn [andb]; [|split; [intros [? ?]; discriminate|intros (_ & _ & ? & _); lra]].
  destruct (i_man i); cbn [andb negb].
  2: { split; [intros _; split; [reflexivity|]; split; [lra|]; split; [split; assumption|discriminate]|intros _; eexists; reflexivity]. }
  destruct (Rleb_spec (c_min c) (i_manv i)) as [E|E]; cbn [andb negb].
  2: { split; [intros [? ?]; discriminate|intros (_ & _ & _ & H); specialize (H eq_refl); lra]. }
  destruct (Rleb_spec (i_manv i) (c_max c)) as [F|F]; cbn [negb].
  - split; [intros _; split; [reflexivity|]; split; [lra|]; split; [|intros _]; split; assumption|intros _; eexists; reflexivity].
  - split; [intros [? ?]; discriminate|intros (_ & _ & _ & H); specialize (H eq_refl); lra].
Qed.
Print Assumptions C134_accepted.

(** ** C135: what decides *)
Theorem C135_position : forall (p : powered R) dt, v_min (p_v p) <= v_max (p_v p) ->
  let v := p_v p in
  let w := p_v (powered_update p dt) in
  let goes x := v_pos w = within (v_min v) x (v_max v) in
  let alive := (p_supply p || p_mgood p) && negb (p_mpfail p) && p_en p in
  (v_mstuck v = true -> goes (v_pos v)) /\
  (v_mstuck v = false -> v_mfail v = true -> goes (v_mfailv v)) /\
  (v_mstuck v = false -> v_mfail v = false -> v_man v = true -> v_mman v = false -> goes (v_manv v)) /\
  (free v ->
    (p_mdstuck p = true -> goes (v_pos v)) /\
    (p_mdstuck p = false -> p_mdfail p = true -> goes (p_mdfailv p)) /\
    (p_mdstuck p = false -> p_mdfail p = false -> alive = false ->
       goes (match p_latch p with NORMALLY_CLOSED => v_min v | NORMALLY_OPEN => v_max v | LATCHING => v_pos v end)) /\
    (p_mdstuck p = false -> p_mdfail p = false -> alive = true -> goes (v_pos v + p_cmd p * p_cs p * dt))) /\
  v_stuck w = (v_mstuck v || v_mfail v)%bool.
Proof.
  intros p dt L. cbv zeta. unfold powered_update, update_position. cbn [p_v v_pos v_stuck]. rewrite limit_within by exact L.
  set (v := p_v p) in *.
  split; [intros ->; reflexivity|]. split; [intros -> ->; reflexivity|]. split; [intros -> -> -> ->; reflexivity|].
  split; [|reflexivity]. intros (F1 & F2 & F3). rewrite F1, F2.
  assert (F : v_man v && negb (v_mman v) = false) by (destruct F3 as [-> | ->]; [reflexivity|apply andb_false_r]).
  rewrite F. unfold drive. fold v.
  split; [intros ->; reflexivity|]. split; [intros -> ->; reflexivity|].
  assert (A : negb (p_supply p || p_mgood p) || p_mpfail p || negb (p_en p) =
              negb ((p_supply p || p_mgood p) && negb (p_mpfail p) && p_en p))
    by (destruct (p_supply p), (p_mgood p), (p_mpfail p), (p_en p); reflexivity).
  rewrite A. split; intros -> -> ->; reflexivity.
Qed.
Print Assumptions C135_position.

(** The electrical load. *)
Theorem C135_power : forall (p : powered R) dt,
  let v := p_v p in
  let w := powered_update p dt in
  let load x r := p_power w = x /\ p_res w = r in
  let alive := (p_supply p || p_mgood p) && negb (p_mpfail p) && p_en p in
  let commanded := Reps < Rabs (p_cmd p) /\ (v_man v = false \/ v_mman v = true) in
  let blocked := v_mstuck v = true \/ p_mdstuck p = true \/
    (v_pos v <= v_min v /\ p_cmd p * p_cs p < 0) \/ (v_max v <= v_pos v /\ 0 < p_cmd p * p_cs p) in
  (alive = false -> load 0 (10 ^ 6)) /\
  (alive = true -> ~ commanded -> load (p_hold p) (p_holdr p)) /\
  (alive = true -> commanded -> blocked -> load (p_stuckp p) (p_stuckr p)) /\
  (alive = true -> commanded -> ~ blocked -> load (p_move p) (p_mover p)).
Proof.
  intros p dt. cbv zeta. unfold powered_update. cbn [p_power p_res]. unfold update_power. set (v := p_v p).
  destruct ((p_supply p || p_mgood p) && negb (p_mpfail p) && p_en p).
  2: { split; [intros _; split; [reflexivity|]; unfold max_resistance; rnum; unfold Rdec; cbn; lra|]. split; [discriminate|]. split; discriminate. }
  split; [discriminate|].
  set (c := (neps <~ nabs (p_cmd p)) && (negb (v_man v) || v_mman v)).
  assert (C : c = true <-> Reps < Rabs (p_cmd p) /\ (v_man v = false \/ v_mman v = true)).
  { unfold c. rnum. destruct (Rltb_spec Reps (Rabs (p_cmd p))), (v_man v), (v_mman v); cbn; split;
      try discriminate; try tauto; intros [? [? | ?]]; try discriminate; try lra. }
  set (b := v_mstuck v || p_mdstuck p || _ || _).
  assert (B : b = true <-> v_mstuck v = true \/ p_mdstuck p = true \/
    (v_pos v <= v_min v /\ p_cmd p * p_cs p < 0) \/ (v_max v <= v_pos v /\ 0 < p_cmd p * p_cs p)).
  { assert (Z1 : p_cmd p * p_cs p < 0 <-> (p_cmd p < 0 /\ 0 < p_cs p) \/ (0 < p_cmd p /\ p_cs p < 0)).
    { split; [|intros [[? ?]|[? ?]]; nra]. intro H. destruct (Rtotal_order (p_cmd p) 0) as [Q|[Q|Q]]; [left|nra|right]; split; nra. }
    assert (Z2 : 0 < p_cmd p * p_cs p <-> (0 < p_cmd p /\ 0 < p_cs p) \/ (p_cmd p < 0 /\ p_cs p < 0)).
    { split; [|intros [[? ?]|[? ?]]; nra]. intro H. destruct (Rtotal_order (p_cmd p) 0) as [Q|[Q|Q]]; [right|nra|left]; split; nra. }
    unfold b. rewrite Z1, Z2. rnum. rewrite !orb_true_iff, !andb_true_iff, !orb_true_iff, !andb_true_iff.
    assert (LT : forall x y, Rltb x y = true <-> x < y) by (intros x y; destruct (Rltb_spec x y); split; auto; discriminate || lra).
    assert (LE : forall x y, Rleb x y = true <-> x <= y) by (intros x y; destruct (Rleb_spec x y); split; auto; discriminate || lra).
    rewrite !LT, !LE. tauto. }
  clearbody c b. destruct c.
  - split; [intros _ H; exfalso; apply H; now apply C|]. destruct b.
    + split; [intros; split; reflexivity|]. intros _ _ H. exfalso. apply H. now apply B.
    + split; [|intros; split; reflexivity]. intros _ _ H. apply B in H. discriminate.
  - split; [intros; split; reflexivity|]. split; intros _ H; apply C in H; discriminate.
Qed.
Print Assumptions C135_power.

(** With the end-of-travel interruption and sensors that see the ends, an open/close valve
    that is not stuck never draws the power of a stuck one. *)
Theorem C135_interrupted : forall e (p : powered R) supply en opn cls sopn scls un h dt,
  p_eot p = true -> 0 < p_cs p -> v_mstuck (p_v p) = false -> p_mdstuck p = false ->
  (v_max (p_v p) <= v_pos (p_v p) -> sopn = true) -> (v_pos (p_v p) <= v_min (p_v p) -> scls = true) ->
  let w := open_close_update e p supply en opn cls sopn scls un h dt in
  p_power w = 0 \/ p_power w = p_hold p \/ p_power w = p_move p.
Proof.
  intros e p supply en opn cls sopn scls un h dt E C S D HO HC. cbv zeta. unfold open_close_update. rewrite E.
  unfold powered_cmd, powered_update. cbn [p_power]. unfold update_power. cbn [p_v p_supply p_mgood p_mpfail p_en p_cmd p_mdstuck p_cs p_stuckp p_hold p_move p_stuckr p_holdr p_mover].
  destruct (_ && en); [|left; reflexivity]. right. destruct (_ && _); [|left; reflexivity]. right.
  rewrite S, D. cbn [orb].
  set (c := open_close_eot_cmd opn cls sopn scls).
  match goal with |- fst (if ?b then _ else _) = _ => assert (B : b = false) end; [|rewrite B; reflexivity].
  assert (K : (c = 1 /\ sopn = false) \/ (c = -1 /\ scls = false) \/ c = 0).
  { unfold c, open_close_eot_cmd. rnum. destruct opn, cls, sopn, scls; cbn; intuition. }
  clearbody c. rnum. destruct K as [[-> Q]|[[-> Q]| ->]].
  - assert (P : v_pos (p_v p) < v_max (p_v p)). { apply Rnot_le_lt. intro H. rewrite (HO H) in Q. discriminate. }
    rewrite (Rleb_false (v_max (p_v p))) by exact P. rewrite (Rltb_false 1 0) by lra. rewrite (Rltb_false (p_cs p) 0) by lra.
    rewrite ?andb_false_l, ?andb_false_r. cbn. now rewrite ?andb_false_r.
  - assert (P : v_min (p_v p) < v_pos (p_v p)). { apply Rnot_le_lt. intro H. rewrite (HC H) in Q. discriminate. }
    rewrite (Rleb_false (v_pos (p_v p))) by exact P. rewrite (Rltb_false 0 (-1)) by lra. rewrite (Rltb_false (p_cs p) 0) by lra.
    rewrite ?andb_false_l, ?andb_false_r. cbn. now rewrite ?andb_false_r.
  - rewrite (Rltb_false 0 0) by lra. cbn. now rewrite !andb_false_r.
Qed.
Print Assumptions C135_interrupted.

(** The same for a speed valve, of either sign of the reference command. *)
Theorem C135_speed_interrupted : forall (p : powered R) supply en cmd sopn scls dt,
  p_eot p = true -> v_mstuck (p_v p) = false -> p_mdstuck p = false ->
  (v_max (p_v p) <= v_pos (p_v p) -> sopn = true) -> (v_pos (p_v p) <= v_min (p_v p) -> scls = true) ->
  let w := speed_update p supply en cmd sopn scls dt in
  (p_power w = 0 \/ p_power w = p_hold p \/ p_power w = p_move p) /\
  (sopn = false -> scls = false -> p_cmd w = cmd) /\ (p_cmd w = cmd \/ p_cmd w = 0).
Proof.
  intros p supply en cmd sopn scls dt E S D HO HC. cbv zeta. unfold speed_update. rewrite E.
  unfold powered_cmd, powered_update. cbn [p_power p_cmd]. split.
  2: { unfold speed_eot_cmd. rnum. split; [intros -> ->; cbn [andb orb]; rewrite !andb_false_r; reflexivity|].
       destruct (_ && _); [now right|]. destruct (_ && _); [now right|now left]. }
  unfold update_power. cbn [p_v p_supply p_mgood p_mpfail p_en p_cmd p_mdstuck p_cs p_stuckp p_hold p_move p_stuckr p_holdr p_mover].
  destruct (_ && en); [|left; reflexivity]. right. destruct (_ && _); [|left; reflexivity]. right.
  rewrite S, D. cbn [orb].
  match goal with |- fst (if ?b then _ else _) = _ => assert (B : b = false) end; [|rewrite B; reflexivity].
  unfold speed_eot_cmd. rnum. destruct (Rleb_spec (v_pos (p_v p)) (v_min (p_v p))) as [P|P], (Rleb_spec (v_max (p_v p)) (v_pos (p_v p))) as [Q|Q];
    try (rewrite (HC P)); try (rewrite (HO Q)); cbn [andb orb].
  - destruct (Rltb_spec 0 cmd), (Rltb_spec 0 (p_cs p)), (Rltb_spec (p_cs p) 0), (Rltb_spec cmd 0); cbn [andb orb];
      rewrite ?(Rltb_false 0 0) by lra; cbn [andb orb]; rewrite ?(Rltb_false 0 cmd), ?(Rltb_false cmd 0) by lra; reflexivity || lra.
  - destruct sopn, (Rltb_spec 0 cmd), (Rltb_spec 0 (p_cs p)), (Rltb_spec (p_cs p) 0), (Rltb_spec cmd 0); cbn [andb orb];
      rewrite ?(Rltb_false 0 0) by lra; cbn [andb orb]; rewrite ?(Rltb_false 0 cmd), ?(Rltb_false cmd 0) by lra; reflexivity || lra.
  - destruct scls, (Rltb_spec 0 cmd), (Rltb_spec 0 (p_cs p)), (Rltb_spec (p_cs p) 0), (Rltb_spec cmd 0); cbn [andb orb];
      rewrite ?(Rltb_false 0 0) by lra; cbn [andb orb]; rewrite ?(Rltb_false 0 cmd), ?(Rltb_false cmd 0) by lra; reflexivity || lra.
  - reflexivity.
Qed.
Print Assumptions C135_speed_interrupted.

(** The handle moves the valve only without the end-of-travel interruption. *)
Theorem C135_handle : forall e (p : powered R) supply en opn cls sopn scls h dt, p_eot p = false ->
  open_close_update e p supply en opn cls sopn scls true h dt =
  powered_cmd p supply en (if Rlt_dec e h then 1 else -1) dt.
Proof.
  intros. unfold open_close_update. rewrite H. unfold open_close_cmd. rnum. unfold Rltb. destruct (Rlt_dec e h); reflexivity.
Qed.
Theorem C135_handle_refuted : exists (p : powered R), drives p /\ v_min (p_v p) <= v_pos (p_v p) < v_max (p_v p) /\ 0 < p_cs p /\
  v_pos (p_v (open_close_update (/ 2 ^ 23) p true true false false false false true 1 1)) = v_pos (p_v p).
Proof.
  exists (mkpowered (mkvalve false false 0 false 0 1 0 1 0 false 0 false true false 0) false false false false 0
            1 1 1 1 1 1 1 true LATCHING false false 0 0 0).
  split; [repeat split; auto|]. cbn [p_v v_min v_pos v_max p_cs]. split; [lra|]. split; [lra|].
  unfold open_close_update, powered_cmd, powered_update, update_position, drive, open_close_eot_cmd.
  cbn [p_v v_pos v_min v_max v_mstuck v_mfail v_man v_mman p_mdstuck p_mdfail p_supply p_mgood p_mpfail p_en p_cmd p_cs p_eot negb andb orb].
  rewrite limit_within by lra. rnum. unfold within, Rmin, Rmax. destruct (Rle_dec _ 1), (Rle_dec 0 _); lra.
Qed.
Print Assumptions C135_handle_refuted.

(** The two paths of a T valve without malfunctions, the dual solenoid valve, and the boolean
    sensor. *)
Theorem C135_paths : forall a b s, v_min a <= v_max a -> v_min b <= v_max b ->
  free (set_manual a false 0) -> v_mman a = false -> free (set_manual b false 0) -> v_mman b = false ->
  let w := tvalve_update (a, b) s in
  v_pos (fst w) = (match s with T_A => v_max a | _ => v_min a end) /\
  v_pos (snd w) = (match s with T_B => v_max b | _ => v_min b end : R).
Proof.
  intros a b s La Lb (A1 & A2 & _) A3 (B1 & B2 & _) B3. cbn [set_manual v_mstuck v_mfail] in *.
  assert (G : forall v x, v_min v <= v_max v -> v_mstuck v = false -> v_mfail v = false -> v_mman v = false ->
    v_min v <= x <= v_max v -> v_pos (valve_update (set_manual v true x)) = x).
  { intros v x L H1 H2 H3 H4. unfold valve_update, update_position. cbn [set_manual v_mstuck v_mfail v_man v_mman v_manv v_min v_max v_pos].
    rewrite H1, H2, H3. cbn [negb andb]. rewrite limit_within by exact L. unfold within, Rmin, Rmax. destruct (Rle_dec x (v_max v)), (Rle_dec _ _); lra. }
  destruct s; cbn [tvalve_update fst snd]; split; apply G; auto; lra.
Qed.
Theorem C135_solenoids : forall (v : valve R) l opn cls mopn mcls, v_min v <= v_max v -> free v ->
  let w := dual_update v l opn cls mopn mcls in
  let o := opn && negb mopn in let c := cls && negb mcls in
  (o = true -> c = false -> v_pos w = v_max v) /\ (o = false -> c = true -> v_pos w = v_min v) /\
  (o = c -> v_pos w = match l with
     | NORMALLY_OPEN => v_max v | NORMALLY_CLOSED => v_min v
     | LATCHING => if Rle_dec ((v_max v + v_min v) / 2) (v_pos v) then v_max v else v_min v end).
Proof.
  intros v l opn cls mopn mcls L (F1 & F2 & F3). cbv zeta. unfold dual_update, update_position, dual_position. cbn [v_pos].
  rewrite F1, F2. assert (F : v_man v && negb (v_mman v) = false) by (destruct F3 as [-> | ->]; [reflexivity|apply andb_false_r]).
  rewrite F, limit_within by exact L. cbn [snd].
  assert (G1 : within (v_min v) (v_max v) (v_max v) = v_max v) by (unfold within, Rmin, Rmax; destruct (Rle_dec _ _), (Rle_dec _ _); lra).
  assert (G2 : within (v_min v) (v_min v) (v_max v) = v_min v) by (unfold within, Rmin, Rmax; destruct (Rle_dec (v_min v) (v_max v)), (Rle_dec _ _); lra).
  set (o := opn && negb mopn). set (c := cls && negb mcls). clearbody o c.
  split; [intros -> ->; exact G1|]. split; [intros -> ->; exact G2|]. intros <-.
  assert (K : negb o && o = false) by now destruct o. rewrite K. destruct l; try assumption.
  replace (ndec 5 (-1) *~ (v_max v +~ v_min v) <=~ v_pos v) with (Rleb ((v_max v + v_min v) / 2) (v_pos v)).
  - unfold Rleb. destruct (Rle_dec _ _); assumption.
  - rnum. f_equal. unfold Rdec. cbn. lra.
Qed.
(** Perfect before off before fail-to before stuck before the truth. *)
Theorem C135_sensor : forall s t,
  (b_perfect s = true -> bool_sense s t = t) /\
  (b_perfect s = false ->
   let on := (b_power s || b_ignore s) && negb (b_failoff s) in
   (on = false -> bool_sense s t = b_off s) /\
   (on = true -> b_failto s = true -> bool_sense s t = b_failtov s) /\
   (on = true -> b_failto s = false -> b_failstuck s = true -> bool_sense s t = b_out s) /\
   (on = true -> b_failto s = false -> b_failstuck s = false -> bool_sense s t = t)).
Proof.
  intros s t. unfold bool_sense. split; [intros ->; reflexivity|]. intros ->. cbv zeta.
  split; [intros ->; reflexivity|]. split; [intros -> ->; reflexivity|]. split; intros -> -> ->; reflexivity.
Qed.
Print Assumptions C135_paths.
Print Assumptions C135_solenoids.
Print Assumptions C135_sensor.
Theorem C135_analog : forall target tol x : R, analog_truth (fun x => x) target tol x = true <-> Rabs (x - target) <= tol.
Proof. intros. unfold analog_truth. rnum. destruct (Rleb_spec (Rabs (x - target)) tol); split; auto; discriminate || lra. Qed.

(** A valve of binary64 numbers that opens within 4 s, is stopped, and is forced open. *)
Definition ex_p (eot : bool) : option (powered float) :=
  powered_init (mkpcfg (mkvcfg 0 1 0 1) 4 1 2 3 5 10 eot NORMALLY_CLOSED)%float (mkpinp (mkvinp 0.5 false 0) true true 0)%float true.
Example ex_C135 : exists p, ex_p false = Some p /\
  v_pos (p_v (powered_cmd p true true 1%float 1%float)) = 0.75%float /\ p_power (powered_cmd p true true 1%float 1%float) = 3%float /\
  p_power (powered_cmd (powered_cmd p true true 1%float 2%float) true true 1%float 1%float) = 5%float /\
  p_res (powered_cmd (powered_cmd p true true 1%float 2%float) true true 1%float 1%float) = 20%float /\
  v_pos (p_v (powered_cmd p false true 1%float 1%float)) = 0%float /\ p_power (powered_cmd p false true 1%float 1%float) = 0%float /\
  p_power (powered_cmd p true true 0%float 1%float) = 2%float.
Proof. eexists. split; [vm_compute; reflexivity|]. repeat split; vm_compute; reflexivity. Qed.
