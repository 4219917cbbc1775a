(** Electrical converters (C144 to C146). *)
From Coq Require Import Floats.
From Coq Require Import Reals Bool ZArith Arith Lia Lra Psatz List.
From Verif Require Import Num MathUtil Trip Converter Spec_Valve Props_Math Props_Valve.
Import ListNotations.
Open Scope R_scope.

Lemma nmaxR' (a b : R) : nmax a b = Rmax a b.
Proof. unfold nmax, Rmax. rnum. destruct (Rltb_spec a b), (Rle_dec a b); lra. Qed.
Lemma nminR' (a b : R) : nmin a b = Rmin a b.
Proof. unfold nmin, Rmin. rnum. destruct (Rltb_spec b a), (Rle_dec a b); lra. Qed.

(** ** C145: what a converter decides *)
Section DECIDE.
Context {T : Type} {N : Num T}.
Variable sq cast : T -> T.
Variable table : option (T -> T).
Notation cin := (cin T).
Notation cout := (cout T).

(** How often the output side can still change its mind in a major step. *)
Definition live (t : @trip T) : nat := if t_inh t || t_trip t then 0 else 1.
Definition rank (l : lim) : nat := match l with NO_LIMIT => 0 | LIMIT_OC | LIMIT_UV => 1 | LIMIT_OV => 2 end.
Definition bias_left (o : cout) : nat := 2 * (o_flips o - o_rflips o) + (if o_rev o then 1 else 0).
Definition lim_left (o : cout) : nat := 3 * (o_flips o - o_lflips o) + rank (o_lim o).
Definition trips_left (o : cout) : nat := live (o_ov o) + live (o_uv o) + live (o_oc o).
Definition left_out (o : cout) : nat := bias_left o + lim_left o + trips_left o.
Definition left_in (i : cin) : nat := live (n_uv i) + live (n_ov i) + (if n_over i then 0 else 1).
Definition spent (r : result) : nat := if is_rej r then 1 else 0.

Lemma check_live d t r p step : let x := check_for_trip d t r p step in
  (live (fst (fst x)) <= live t)%nat /\ (is_rej (snd (fst x)) = true -> is_rej r = true \/ live (fst (fst x)) < live t)%nat.
Proof.
  cbv zeta. unfold check_for_trip. destruct (t_inh t) eqn:I.
  - cbn [t_trip reset_trip t_with t_inh]. rewrite I. cbn [orb negb fst snd]. unfold live. cbn [t_inh t_with reset_trip]. rewrite I. cbn [orb]. split; [lia|auto].
  - destruct (t_trip t || false || (n0 ==~ t_limit t) || (t_prio t <? 1)%Z) eqn:B; rewrite ?I, ?B; cbn [negb fst snd]; [split; [lia|auto]|].
    apply orb_false_iff in B as [B _]. apply orb_false_iff in B as [B _]. rewrite orb_false_r in B.
    destruct (t_force t || is_trip_condition d t p); [|cbn [fst snd]; split; [lia|auto]].
    destruct (t_force t || (to_unsigned step =? t_prio t)%Z).
    + unfold live. cbn [fst snd t_inh t_trip t_with]. rewrite I, B. cbn. split; [lia|]. intros _. right. lia.
    + destruct r; cbn [fst snd]; split; try lia; auto.
Qed.

Lemma bias_drop r step nr (o : cout) : let '(o', r') := update_bias r step nr o in
  lim_left o' = lim_left o /\ trips_left o' = trips_left o /\ (bias_left o' <= bias_left o)%nat /\ o_flips o' = o_flips o /\
  (is_rej r' = true -> is_rej r = true \/ bias_left o' < bias_left o)%nat.
Proof.
  unfold update_bias.
  set (x := if match o_lim o with LIMIT_OC => true | NO_LIMIT => _ | _ => false end then _ else _).
  assert (X : x = o_with_bias o false (o_rflips o) \/ x = o \/ (o_rflips o < o_flips o)%nat /\ o_rev o = false /\ x = o_with_bias o true (S (o_rflips o))).
  { unfold x. destruct (match o_lim o with LIMIT_OC => true | NO_LIMIT => _ | _ => false end); [auto|]. destruct (_ <=~ _); [auto|].
    destruct ((0 <? step)%Z && Nat.ltb (o_rflips o) (o_flips o) && negb (o_rev o || nr)) eqn:B; [|auto].
    right. right. apply andb_true_iff in B as [B B3]. apply andb_true_iff in B as [_ B2]. apply Nat.ltb_lt in B2. apply negb_true_iff, orb_false_iff in B3 as [B3 _]. auto. }
  clearbody x. destruct (Bool.eqb (o_rev o) (o_rev x)) eqn:E.
  - apply eqb_prop in E. destruct X as [-> | [-> | (L & F & ->)]].
    + cbn [o_with_bias o_rev] in E. unfold lim_left, trips_left, bias_left. cbn [o_with_bias o_rev o_flips o_rflips o_lflips o_lim o_ov o_uv o_oc]. rewrite E. repeat split; auto.
    + repeat split; auto.
    + cbn [o_with_bias o_rev] in E. congruence.
  - assert (NE : o_rev o <> o_rev x) by (intro Q; rewrite Q, eqb_reflx in E; discriminate). unfold lim_left, trips_left, bias_left.
    destruct X as [-> | [-> | (L & F & ->)]]; cbn [o_with_power o_with_bias o_rev o_flips o_rflips o_lflips o_lim o_ov o_uv o_oc] in *; [|congruence|];
      repeat split; auto; try (intros _; right); destruct (o_rev o); try congruence; lia.
Qed.

Lemma limit_drop r v c (o : cout) : let '(o', r', _) := update_limit sq cast r v c o in
  bias_left o' = bias_left o /\ trips_left o' = trips_left o /\ (lim_left o' <= lim_left o)%nat /\ o_flips o' = o_flips o /\
  (is_rej r' = true -> is_rej r = true \/ lim_left o' < lim_left o)%nat.
Proof.
  assert (Z : bias_left o = bias_left o /\ trips_left o = trips_left o /\ (lim_left o <= lim_left o)%nat /\ o_flips o = o_flips o /\ (is_rej r = true -> is_rej r = true \/ lim_left o < lim_left o)%nat) by (repeat split; auto).
  assert (K : forall l, (rank l < rank (o_lim o) /\ (l = NO_LIMIT \/ l = LIMIT_UV) \/ o_lflips o < o_flips o /\ l <> NO_LIMIT)%nat ->
    let o' := fst (reject_with l o) in
    bias_left o' = bias_left o /\ trips_left o' = trips_left o /\ (lim_left o' <= lim_left o)%nat /\ o_flips o' = o_flips o /\ (is_rej REJECT = true -> is_rej r = true \/ lim_left o' < lim_left o)%nat).
  { intros l H. cbv zeta. unfold reject_with, bias_left, trips_left, lim_left. cbn [fst o_with_lim o_rev o_flips o_rflips o_lflips o_lim o_ov o_uv o_oc].
    repeat split; try (intros _; right); destruct l, (o_lim o); cbn [rank] in *; destruct H as [[H H2] | [H H2]]; try congruence; try lia; destruct H2; congruence. }
  unfold update_limit. destruct (o_en o && o_limon o).
  2:{ unfold bias_left, trips_left, lim_left. cbn [o_with_lim o_rev o_flips o_rflips o_lflips o_lim o_ov o_uv o_oc rank]. repeat split; auto. lia. }
  destruct (is_voltage (o_type o)).
  - unfold update_current_limit. destruct (o_lim o) eqn:L; try exact Z.
    + destruct (_ && (t_limit (o_oc o) <~ c)) eqn:B; [|exact Z]. apply (K LIMIT_OC). right. split; [|discriminate].
      apply andb_true_iff in B as [B _]. apply andb_true_iff in B as [_ B]. now apply Nat.ltb_lt.
    + destruct (_ <~ v); [|exact Z]. apply (K NO_LIMIT). left. cbn [rank]. auto.
  - unfold update_voltage_limit. destruct (Nat.ltb_spec (o_lflips o) (o_flips o)) as [F|F].
    + destruct (o_lim o) eqn:L; repeat match goal with |- context [if ?b then _ else _] => destruct b end;
        try exact Z; first [apply (K NO_LIMIT) | apply (K LIMIT_OV) | apply (K LIMIT_UV) | apply (K LIMIT_OC)];
        first [right; split; [exact F|discriminate] | left; cbn [rank]; auto].
    + rewrite !andb_false_r, !andb_false_l. destruct (o_lim o) eqn:L; repeat match goal with |- context [if ?b then _ else _] => destruct b end;
        try exact Z; first [apply (K NO_LIMIT) | apply (K LIMIT_UV)]; left; cbn [rank]; auto.
Qed.
Lemma trips_drop r v c step (o : cout) : let x := out_trips r v c step o in
  bias_left (fst x) = bias_left o /\ lim_left (fst x) = lim_left o /\ (trips_left (fst x) <= trips_left o)%nat /\ o_flips (fst x) = o_flips o /\
  (is_rej (snd x) = true -> is_rej r = true \/ trips_left (fst x) < trips_left o)%nat.
Proof.
  cbv zeta. unfold out_trips. destruct (o_en o); [|cbn [fst snd]; repeat split; auto].
  destruct (negb (o_limon o && negb (is_voltage (o_type o)))); destruct (negb (o_limon o)).
  - pose proof (check_live GreaterThan (o_ov o) r v step) as A. destruct (check_for_trip GreaterThan (o_ov o) r v step) as [[ov r1] x1]. cbv zeta in A. cbn [fst snd] in A.
    pose proof (check_live LessThan (o_uv o) r1 v step) as B. destruct (check_for_trip LessThan (o_uv o) r1 v step) as [[uv r2] x2]. cbv zeta in B. cbn [fst snd] in B.
    pose proof (check_live GreaterThan (o_oc o) r2 c step) as C. destruct (check_for_trip GreaterThan (o_oc o) r2 c step) as [[oc r3] x3]. cbv zeta in C. cbn [fst snd] in C.
    unfold bias_left, lim_left, trips_left. cbn [fst snd o_with_trips o_rev o_flips o_rflips o_lflips o_lim o_ov o_uv o_oc]. repeat split; try lia. intro H. intuition lia.
  - pose proof (check_live GreaterThan (o_ov o) r v step) as A. destruct (check_for_trip GreaterThan (o_ov o) r v step) as [[ov r1] x1]. cbv zeta in A. cbn [fst snd] in A.
    pose proof (check_live LessThan (o_uv o) r1 v step) as B. destruct (check_for_trip LessThan (o_uv o) r1 v step) as [[uv r2] x2]. cbv zeta in B. cbn [fst snd] in B.
    unfold bias_left, lim_left, trips_left. cbn [fst snd o_with_trips o_rev o_flips o_rflips o_lflips o_lim o_ov o_uv o_oc]. repeat split; try lia. intro H. intuition lia.
  - pose proof (check_live GreaterThan (o_oc o) r c step) as C. destruct (check_for_trip GreaterThan (o_oc o) r c step) as [[oc r3] x3]. cbv zeta in C. cbn [fst snd] in C.
    unfold bias_left, lim_left, trips_left. cbn [fst snd o_with_trips o_rev o_flips o_rflips o_lflips o_lim o_ov o_uv o_oc]. repeat split; try lia. intro H. intuition lia.
  - unfold bias_left, lim_left, trips_left. cbn [fst snd o_with_trips o_rev o_flips o_rflips o_lflips o_lim o_ov o_uv o_oc]. repeat split; try lia. auto.
Qed.
Lemma power_left (o : cout) : let x := fst (input_power o) in
  bias_left x = bias_left o /\ lim_left x = lim_left o /\ trips_left x = trips_left o /\ o_flips x = o_flips o.
Proof. cbv zeta. unfold input_power. destruct (_ || _); repeat split. Qed.

Lemma self_drop step sv si (o : cout) : let x := out_self sq cast step sv si o in
  (left_out (fst x) + spent (snd x) <= left_out o)%nat /\ o_flips (fst x) = o_flips o /\ o_pval (fst x) = negb (is_rej (snd x)).
Proof.
  cbv zeta. unfold out_self. pose proof (bias_drop CONFIRM step false o) as A. destruct (update_bias CONFIRM step false o) as [o1 r1]. cbn [is_rej] in A.
  assert (B : forall o2 (r2 : result), let o3 := o_with_pval o2 (negb (is_rej r2)) in left_out o3 = left_out o2 /\ o_flips o3 = o_flips o2 /\ o_pval o3 = negb (is_rej r2)) by (intros; repeat split).
  destruct ((0 <? step)%Z && negb (is_rej r1)) eqn:E.
  - apply andb_true_iff in E as [_ E]. apply negb_true_iff in E.
    pose proof (power_left o1) as P. cbv zeta in P. destruct (input_power o1) as [o2 p]. cbn [fst] in P.
    set (o3 := o_with_power o2 p). set (v := sv _). set (c := si _).
    assert (P3 : bias_left o3 = bias_left o2 /\ lim_left o3 = lim_left o2 /\ trips_left o3 = trips_left o2 /\ o_flips o3 = o_flips o2) by (repeat split). clearbody o3 v c.
    pose proof (trips_drop r1 v c step o3) as C. cbv zeta in C. destruct (out_trips r1 v c step o3) as [o4 r4]. cbn [fst snd] in C.
    pose proof (limit_drop r4 v c o4) as D. destruct (update_limit sq cast r4 v c o4) as [[o5 r5] nr].
    pose proof (bias_drop r5 step nr o5) as F. destruct (update_bias r5 step nr o5) as [o6 r6]. cbn [fst snd].
    destruct (B o6 r6) as (B1 & B2 & B3). rewrite B1, B2, B3. split; [|split; [|reflexivity]].
    + unfold left_out, spent. destruct (is_rej r6) eqn:R6; [|lia]. intuition (try congruence; try lia).
    + lia.
  - cbn [fst snd]. destruct (B o1 r1) as (B1 & B2 & B3). rewrite B1, B2, B3. split; [|split; [lia|reflexivity]].
    unfold left_out, spent. destruct (is_rej r1) eqn:R6; [|lia]. intuition (try congruence; try lia).
Qed.

Lemma in_self_drop step sv (i : cin) : let x := in_self cast step sv i in
  (left_in (fst x) + spent (snd x) <= left_in i)%nat /\ n_vval (fst x) = negb (is_rej (snd x)).
Proof.
  cbv zeta. unfold in_self. set (v := sv _). clearbody v.
  assert (A : exists i1 r1, (if n_en i then
      let '(ov, r, _) := check_for_trip GreaterThan (n_ov i) CONFIRM v step in
      let '(uv, r, _) := check_for_trip LessThan (n_uv i) r v step in
      (n_with_trips i uv ov (n_reset i) (n_over i), r)
    else (i, CONFIRM)) = (i1, r1) /\ (left_in i1 + spent r1 <= left_in i)%nat).
  { destruct (n_en i); [|exists i, CONFIRM; split; [reflexivity|cbn; lia]].
    pose proof (check_live GreaterThan (n_ov i) CONFIRM v step) as A. destruct (check_for_trip GreaterThan (n_ov i) CONFIRM v step) as [[ov r1] x1]. cbv zeta in A. cbn [fst snd] in A.
    pose proof (check_live LessThan (n_uv i) r1 v step) as B. destruct (check_for_trip LessThan (n_uv i) r1 v step) as [[uv r2] x2]. cbv zeta in B. cbn [fst snd] in B.
    eexists _, _. split; [reflexivity|]. unfold left_in, spent. cbn [n_with_trips n_uv n_ov n_over is_rej] in *. destruct (is_rej r2); intuition (try discriminate; try lia). }
  destruct A as (i1 & r1 & -> & A).
  assert (V : forall i2 (r2 : result), left_in (n_with_valid i2 (negb (is_rej r2))) = left_in i2) by reflexivity.
  destruct r1; try (cbn [fst snd]; rewrite V; split; [exact A|reflexivity]).
  destruct (n_off i1 || n_over i1) eqn:O; cbn [negb]; [cbn [fst snd]; rewrite V; split; [exact A|reflexivity]|].
  set (i2 := n_with_volt i1 _). assert (L2 : left_in i2 = left_in i1) by reflexivity. assert (O2 : n_over i2 = false) by (apply orb_false_iff in O as [_ O]; exact O).
  destruct (_ && _); cbn [fst snd]; rewrite V; (split; [|reflexivity]); [|rewrite L2; exact A].
  unfold left_in, spent in *. cbn [is_rej n_with_trips n_uv n_ov n_over] in *. rewrite O2 in L2. destruct (n_over i1); lia.
Qed.

(** Minor steps change nothing of this. *)
Lemma in_minor_left (i : cin) mo : left_in (fst (in_minor table i mo)) = left_in i /\ n_vval (fst (in_minor table i mo)) = n_vval i /\ q_gnd (n_k (fst (in_minor table i mo))) = q_gnd (n_k i) /\
  match snd (in_minor table i mo), mo with
  | Some o', Some o => left_out o' = left_out o /\ o_flips o' = o_flips o /\ q_gnd (o_k o') = q_gnd (o_k o)
  | None, None => True | _, _ => False end.
Proof.
  assert (L : forall j, left_in (in_load table j) = left_in j /\ n_vval (in_load table j) = n_vval j /\ q_gnd (n_k (in_load table j)) = q_gnd (n_k j)).
  { intro j. unfold in_load. cbv zeta. destruct (negb _); repeat split. }
  unfold in_minor. destruct (q_gnd (n_k i)) eqn:G.
  - cbn [fst snd]. rewrite <- G. repeat split. destruct mo; auto.
  - set (j := n_with_volt i _). assert (J : left_in j = left_in i /\ n_vval j = n_vval i /\ q_gnd (n_k j) = q_gnd (n_k i)) by (repeat split). clearbody j. rewrite <- G.
    destruct mo as [o|].
    + destruct (n_lead j).
      * pose proof (power_left o) as P. cbv zeta in P. assert (PG : q_gnd (o_k (fst (input_power o))) = q_gnd (o_k o)) by (unfold input_power; destruct (_ || _); reflexivity).
        destruct (input_power o) as [o' p]. cbn [fst snd] in *. destruct (L (n_with_power j p (o_pval o'))) as (L1 & L2 & L3). rewrite L1, L2, L3.
        destruct J as (J1 & J2 & J3), P as (P1 & P2 & P3 & P4). split; [exact J1|]. split; [exact J2|]. split; [exact J3|]. split; [|split; [exact P4|exact PG]].
        change (left_out o' = left_out o). unfold left_out. lia.
      * cbn [fst snd]. destruct (L (n_with_power j (n_pin j) (o_pval o))) as (L1 & L2 & L3). rewrite L1, L2, L3. destruct J as (J1 & J2 & J3). repeat split; assumption.
    + cbn [fst snd]. destruct (L (n_with_power j (n_pin j) true)) as (L1 & L2 & L3). rewrite L1, L2, L3. destruct J as (J1 & J2 & J3). repeat split; assumption.
Qed.
Lemma out_minor_left m (o : cout) mi : left_out (fst (out_minor sq m o mi)) = left_out o /\ o_flips (fst (out_minor sq m o mi)) = o_flips o /\ q_gnd (o_k (fst (out_minor sq m o mi))) = q_gnd (o_k o) /\
  match snd (out_minor sq m o mi), mi with
  | Some i', Some i => left_in i' = left_in i /\ n_vval i' = n_vval i /\ q_gnd (n_k i') = q_gnd (n_k i)
  | None, None => True | _, _ => False end.
Proof.
  assert (L : forall j, left_out (out_drive sq m j) = left_out j /\ o_flips (out_drive sq m j) = o_flips j /\ q_gnd (o_k (out_drive sq m j)) = q_gnd (o_k j)).
  { intro j. unfold out_drive. set (j1 := if Nat.eqb 1 m then _ else _). assert (J1 : left_out j1 = left_out j /\ o_flips j1 = o_flips j /\ q_gnd (o_k j1) = q_gnd (o_k j)) by (unfold j1; destruct (Nat.eqb 1 m); repeat split).
    clearbody j1. set (j2 := estimate_load j1). assert (J2 : left_out j2 = left_out j1 /\ o_flips j2 = o_flips j1 /\ q_gnd (o_k j2) = q_gnd (o_k j1)) by (repeat split). clearbody j2.
    destruct (if o_en j2 && o_avail j2 && negb (any_trips j2) then sources sq j2 else (n0, n0, n0)) as [[g v] c]. destruct J1 as (A1 & A2 & A3), J2 as (B1 & B2 & B3).
    rewrite <- A1, <- A2, <- A3, <- B1, <- B2, <- B3. destruct (n0 <~ _); repeat split. }
  unfold out_minor. set (o1 := o_with_src o n0). assert (O1 : left_out o1 = left_out o /\ o_flips o1 = o_flips o /\ q_gnd (o_k o1) = q_gnd (o_k o)) by (repeat split). clearbody o1. destruct O1 as (O1 & O2 & O3).
  destruct (q_gnd (o_k o1)) eqn:G.
  - cbn [fst snd]. rewrite <- O1, <- O2, <- O3. repeat split; [exact G|]. destruct mi; auto.
  - pose proof (power_left o1) as P. cbv zeta in P. assert (PG : q_gnd (o_k (fst (input_power o1))) = q_gnd (o_k o1)) by (unfold input_power; destruct (_ || _); reflexivity).
    destruct (input_power o1) as [o2 p]. cbn [fst] in P, PG. set (o3 := o_with_power o2 p).
    assert (P3 : left_out o3 = left_out o1 /\ o_flips o3 = o_flips o1 /\ q_gnd (o_k o3) = q_gnd (o_k o1)).
    { unfold left_out, bias_left, lim_left, trips_left in *. unfold o3. cbn. repeat split; try lia. exact PG. }
    clearbody o3. destruct P3 as (Q1 & Q2 & Q3). rewrite <- O1, <- O2, <- O3. rewrite G in Q3. rewrite <- Q1, <- Q2, <- Q3.
    destruct mi as [i|].
    + destruct (o_lead o3); cbn [fst snd];
        [destruct (L (o_with_volt o3 (input_voltage i) (n_vval i))) as (L1 & L2 & L3)|destruct (L (o_with_volt o3 (o_vin o3) (n_vval i))) as (L1 & L2 & L3)];
        rewrite L1, L2, L3; repeat split.
    + cbn [fst snd]. destruct (L (o_with_volt o3 (o_vin o3) true)) as (L1 & L2 & L3). rewrite L1, L2, L3. repeat split.
Qed.

(** What the decision leaves alone. *)
Definition fixd (o : cout) := (q_gnd (o_k o), q_p (o_k o), q_malf (o_k o), q_malfv (o_k o), o_vval o, o_vin o, o_en o, o_type o, o_limon o, (o_flips o, o_lead o, o_set o, o_g o, o_avail o)).
Lemma bias_fixd r step nr (o : cout) : fixd (fst (update_bias r step nr o)) = fixd o.
Proof. unfold update_bias. repeat match goal with |- context [if ?b then _ else _] => destruct b end; reflexivity. Qed.
Lemma power_fixd (o : cout) : fixd (fst (input_power o)) = fixd o.
Proof. unfold input_power. destruct (_ || _); reflexivity. Qed.
Lemma limit_fixd r v c (o : cout) : fixd (fst (fst (update_limit sq cast r v c o))) = fixd o.
Proof.
  unfold update_limit, update_current_limit, update_voltage_limit, reject_with. destruct (o_lim o); repeat match goal with |- context [if ?b then _ else _] => destruct b end; reflexivity.
Qed.
Lemma trips_fixd r v c step (o : cout) : fixd (fst (out_trips r v c step o)) = fixd o.
Proof.
  unfold out_trips. destruct (o_en o); [|reflexivity]. destruct (if negb (o_limon o && _) then _ else _) as [[ov uv] r1]. destruct (if negb (o_limon o) then _ else _) as [oc r2]. reflexivity.
Qed.
Lemma self_fixd step sv si (o : cout) : fixd (fst (out_self sq cast step sv si o)) = fixd o.
Proof.
  unfold out_self. pose proof (bias_fixd CONFIRM step false o) as A. destruct (update_bias CONFIRM step false o) as [o1 r1]. cbn [fst] in A.
  destruct (_ && _); [|rewrite <- A; reflexivity]. pose proof (power_fixd o1) as B. destruct (input_power o1) as [o2 p]. cbn [fst] in B.
  set (o3 := o_with_power o2 p). assert (C : fixd o3 = fixd o2) by reflexivity. clearbody o3. set (v := sv _). set (c := si _).
  pose proof (trips_fixd r1 v c step o3) as D. destruct (out_trips r1 v c step o3) as [o4 r4]. cbn [fst] in D.
  pose proof (limit_fixd r4 v c o4) as E. destruct (update_limit sq cast r4 v c o4) as [[o5 r5] nr]. cbn [fst] in E.
  pose proof (bias_fixd r5 step nr o5) as F. destruct (update_bias r5 step nr o5) as [o6 r6]. cbn [fst] in *. transitivity (fixd o6); [reflexivity|congruence].
Qed.
Lemma self_gnd step sv si (o : cout) : let o' := fst (out_self sq cast step sv si o) in q_gnd (o_k o') = q_gnd (o_k o) /\ o_vval o' = o_vval o /\ o_vin o' = o_vin o.
Proof. cbv zeta. pose proof (self_fixd step sv si o) as A. unfold fixd in A. injection A. auto. Qed.
Lemma in_self_gnd step sv (i : cin) : q_gnd (n_k (fst (in_self cast step sv i))) = q_gnd (n_k i).
Proof.
  unfold in_self. destruct (if n_en i then _ else _) as [i1 r1] eqn:E.
  assert (A : q_gnd (n_k i1) = q_gnd (n_k i)).
  { destruct (n_en i); [|now injection E as <- <-]. destruct (check_for_trip GreaterThan _ _ _ _) as [[? ?] ?]. destruct (check_for_trip LessThan _ _ _ _) as [[? ?] ?]. now injection E as <- <-. }
  rewrite <- A. destruct r1; repeat match goal with |- context [if ?b then _ else _] => destruct b end; reflexivity.
Qed.

(** An output side without its input side in the network: between the decisions, minor steps at any
    potential and input voltage. *)
Definition turn (e : nat * Z * T * T * (T -> T) * (T -> T)) (o : cout) : cout * result :=
  let '(m, step, vin, p, sv, si) := e in
  let o := fst (out_minor sq m (o_with_volt o vin true) None) in
  let x := out_confirm sq cast step sv si (o_with_k o (q_pot (o_k o) p)) None in
  (if is_rej (snd x) then out_back (fst x) else fst x, snd x).
Fixpoint turns (es : list (nat * Z * T * T * (T -> T) * (T -> T))) (o : cout) : nat :=
  match es with
  | [] => 0%nat
  | e :: es => (spent (snd (turn e o)) + turns es (fst (turn e o)))%nat
  end.
Lemma turn_drop e (o : cout) : q_gnd (o_k o) = false -> (left_out (fst (turn e o)) + spent (snd (turn e o)) <= left_out o)%nat /\ q_gnd (o_k (fst (turn e o))) = false.
Proof.
  intro G. destruct e as [[[[[m step] vin] p] sv] si]. unfold turn.
  pose proof (out_minor_left m (o_with_volt o vin true) None) as A. set (o1 := fst (out_minor sq m _ None)) in *. destruct A as (A1 & _ & A3 & _).
  set (o2 := o_with_k o1 _). assert (G2 : q_gnd (o_k o2) = false) by (cbn; rewrite A3; exact G). assert (L2 : left_out o2 = left_out o) by exact A1.
  assert (V2 : o_vval o2 = true).
  { unfold o2, o1. cbn [o_with_k o_vval]. unfold out_minor. set (x := o_with_src _ _). change (q_gnd (o_k x)) with (q_gnd (o_k o)). rewrite G.
    destruct (input_power x) as [y q]. cbn [fst].
    unfold out_drive. destruct (Nat.eqb 1 m); set (z1 := estimate_load _); assert (Z1 : o_vval z1 = true) by reflexivity; clearbody z1; destruct (if _ && negb (any_trips z1) then _ else _) as [[g v] c]; exact Z1. }
  clearbody o2. clear o1 A1 A3. unfold out_confirm. rewrite G2. pose proof (self_drop step sv si o2) as S. pose proof (self_gnd step sv si o2) as K. cbv zeta in S, K.
  destruct (out_self sq cast step sv si o2) as [o3 r3]. cbn [fst snd] in *. destruct K as (K1 & K2 & _). rewrite K2, V2.
  rewrite G2 in K1. destruct (is_rej r3); (split; [|exact K1]).
  - change (left_out (out_back o3)) with (left_out o3). lia.
  - lia.
Qed.
Theorem C145_settles_alone : forall es (o : cout), q_gnd (o_k o) = false -> o_rflips o = 0%nat -> o_lflips o = 0%nat ->
  (turns es o <= 5 * o_flips o + 6)%nat.
Proof.
  assert (G : forall es (o : cout), q_gnd (o_k o) = false -> (turns es o <= left_out o)%nat).
  { induction es as [|e es IH]; intros o G; cbn [turns]; [lia|]. destruct (turn_drop e o G) as [A B]. specialize (IH _ B). lia. }
  intros es o Q R L. specialize (G es o Q). unfold left_out, bias_left, lim_left, trips_left in G. rewrite R, L in G.
  assert (V : forall t, (live t <= 1)%nat) by (intro t; unfold live; destruct (_ || _); lia). assert (V1 := V (o_ov o)). assert (V2 := V (o_uv o)). assert (V3 := V (o_oc o)).
  destruct (o_rev o), (o_lim o); cbn [rank] in G; lia.
Qed.

(** The two sides in one network, the output side first. *)
Definition left_pair (i : cin) (o : cout) : nat := (left_out o + 2 * left_in i + (if n_vval i then 0 else 1))%nat.
Lemma pass_drop e (i : cin) (o : cout) : q_gnd (n_k i) = false -> q_gnd (o_k o) = false ->
  let '(i', o', rej) := pair_pass sq cast table false e (i, o) in
  q_gnd (n_k i') = false /\ q_gnd (o_k o') = false /\ (left_pair i' o' + (if rej then 1 else 0) <= left_pair i o)%nat.
Proof.
  intros Gi Go. unfold pair_pass.
  assert (M : exists i1 o1, (if e_skip e then (i, o) else if false then
      let '(i, mo) := in_minor table i (Some o) in
      let '(o, mi) := out_minor sq (e_minor e) (match mo with Some o => o | None => o end) (Some i) in
      (match mi with Some i => i | None => i end, o)
    else
      let '(o, mi) := out_minor sq (e_minor e) o (Some i) in
      let '(i, mo) := in_minor table (match mi with Some i => i | None => i end) (Some o) in
      (i, match mo with Some o => o | None => o end)) = (i1, o1) /\ q_gnd (n_k i1) = false /\ q_gnd (o_k o1) = false /\ left_pair i1 o1 = left_pair i o).
  { destruct (e_skip e); [exists i, o; auto|].
    pose proof (out_minor_left (e_minor e) o (Some i)) as A. destruct (out_minor sq (e_minor e) o (Some i)) as [o1 mi]. cbn [fst snd] in A. destruct A as (A1 & A2 & A3 & A4). destruct mi as [i1|]; [|destruct A4].
    destruct A4 as (A4 & A5 & A6). pose proof (in_minor_left i1 (Some o1)) as B. destruct (in_minor table i1 (Some o1)) as [i2 mo]. cbn [fst snd] in B. destruct B as (B1 & B2 & B3 & B4). destruct mo as [o2|]; [|destruct B4].
    destruct B4 as (B4 & B5 & B6). eexists _, _. split; [reflexivity|]. unfold left_pair. rewrite B1, B2, B3, B4, B6, A1, A3, A4, A5, A6. auto. }
  destruct M as (i1 & o1 & -> & G1 & G2 & L). rewrite <- L. clear L Gi Go i o.
  set (i2 := n_with_k i1 _). set (o2 := o_with_k o1 _). assert (I2 : q_gnd (n_k i2) = false) by exact G1. assert (O2 : q_gnd (o_k o2) = false) by exact G2.
  assert (L : left_pair i2 o2 = left_pair i1 o1) by reflexivity. rewrite <- L. clear L G1 G2. clearbody i2 o2. clear i1 o1.
  unfold out_confirm. rewrite O2. pose proof (self_drop (e_step e) (e_svo e) (e_sio e) o2) as S. pose proof (self_gnd (e_step e) (e_svo e) (e_sio e) o2) as K. cbv zeta in S, K.
  destruct (out_self sq cast (e_step e) (e_svo e) (e_sio e) o2) as [o3 r3]. cbn [fst snd] in *. destruct K as (K1 & _ & _). rewrite O2 in K1. destruct S as (S1 & S2 & S3).
  cbn [o_with_volt o_vval]. unfold in_confirm. rewrite I2.
  set (r3' := if n_vval i2 then r3 else REJECT).
  assert (R3 : (is_rej r3' = true -> is_rej r3 = true \/ n_vval i2 = false)) by (unfold r3'; destruct (n_vval i2); auto).
  assert (FIN : forall (i4 : cin) (b : bool), q_gnd (n_k i4) = false -> (left_out o3 + 2 * left_in i4 + (if n_vval i4 then 0 else 1) + (if b then 1 else 0) <= left_pair i2 o2)%nat ->
     let '(i', o', rej) := if b || e_rej e then (in_back (e_step e) (n_with_k i4 (q_pot (n_k i4) (e_bi e))), out_back (o_with_k (o_with_volt o3 (o_vin o3) (n_vval i2)) (q_pot (o_k (o_with_volt o3 (o_vin o3) (n_vval i2))) (e_bo e))), b)
        else (i4, o_with_volt o3 (o_vin o3) (n_vval i2), b) in
     q_gnd (n_k i') = false /\ q_gnd (o_k o') = false /\ (left_pair i' o' + (if rej then 1 else 0) <= left_pair i2 o2)%nat).
  { intros i4 b G4 H. destruct (b || e_rej e).
    - assert (LB : forall x : cin, left_in (in_back (e_step e) x) = left_in x /\ n_vval (in_back (e_step e) x) = n_vval x /\ q_gnd (n_k (in_back (e_step e) x)) = q_gnd (n_k x)) by (intro x; unfold in_back; destruct (_ && _); repeat split).
      unfold left_pair at 1. destruct (LB (n_with_k i4 (q_pot (n_k i4) (e_bi e)))) as (LB1 & LB2 & LB3). rewrite LB1, LB2, LB3. split; [exact G4|]. split; [exact K1|]. exact H.
    - split; [exact G4|]. split; [exact K1|]. exact H. }
  destruct (0 =? e_step e)%Z.
  - cbn [is_rej orb]. apply FIN; [exact I2|]. cbn [n_with_valid n_vval]. change (left_in (n_with_valid i2 true)) with (left_in i2). unfold left_pair, spent in *.
    destruct (is_rej r3') eqn:E; [|destruct (is_rej r3); lia]. destruct (R3 eq_refl) as [Q|Q]; rewrite Q in *; destruct (n_vval i2), (is_rej r3); try discriminate; lia.
  - pose proof (in_self_drop (e_step e) (e_svi e) i2) as D. pose proof (in_self_gnd (e_step e) (e_svi e) i2) as DG. cbv zeta in D.
    destruct (in_self cast (e_step e) (e_svi e) i2) as [i3 r1]. cbn [fst snd] in *. destruct D as (D1 & D2).
    cbn [n_with_power n_pval o_with_volt o_pval]. rewrite S3. apply FIN; [cbn; rewrite DG; exact I2|].
    change (left_in (n_with_power i3 (n_pin i3) (negb (is_rej r3)))) with (left_in i3). change (n_vval (n_with_power i3 (n_pin i3) (negb (is_rej r3)))) with (n_vval i3).
    rewrite D2. unfold left_pair, spent in *.
    destruct (is_rej r3) eqn:E3; cbn [negb is_rej orb].
    + destruct (is_rej r1); cbn [negb orb]; destruct (n_vval i2); lia.
    + destruct (is_rej r1) eqn:E1; cbn [negb orb].
      * destruct (n_vval i2); lia.
      * destruct (is_rej r3') eqn:E; [|destruct (n_vval i2); lia]. destruct (R3 eq_refl) as [Q|Q]; [congruence|]. rewrite Q. lia.
Qed.
Theorem C145_settles : forall es (i : cin) (o : cout), q_gnd (n_k i) = false -> q_gnd (o_k o) = false -> o_rflips o = 0%nat -> o_lflips o = 0%nat ->
  (snd (pair_passes sq cast table false es (i, o)) <= 5 * o_flips o + 13)%nat.
Proof.
  assert (G : forall es (i : cin) (o : cout), q_gnd (n_k i) = false -> q_gnd (o_k o) = false -> (snd (pair_passes sq cast table false es (i, o)) <= left_pair i o)%nat).
  { induction es as [|e es IH]; intros i o Gi Go; cbn [pair_passes snd]; [lia|]. pose proof (pass_drop e i o Gi Go) as A.
    destruct (pair_pass sq cast table false e (i, o)) as [[i1 o1] rej]. destruct A as (A1 & A2 & A3). specialize (IH i1 o1 A1 A2). destruct (pair_passes sq cast table false es (i1, o1)) as [s n]. cbn [snd] in *. lia. }
  intros es i o Gi Go R L. specialize (G es i o Gi Go). unfold left_pair, left_out, bias_left, lim_left, trips_left, left_in in G. rewrite R, L in G.
  assert (V : forall t, (live t <= 1)%nat) by (intro t; unfold live; destruct (_ || _); lia). assert (V1 := V (o_ov o)). assert (V2 := V (o_uv o)). assert (V3 := V (o_oc o)). assert (V4 := V (n_ov i)). assert (V5 := V (n_uv i)).
  destruct (o_rev o), (o_lim o), (n_over i), (n_vval i); cbn [rank] in G; lia.
Qed.

(** A solution accepted by a limiting converter that has flips left keeps within the limits. *)
Definition sensed_v (sv : T -> T) (o : cout) : T := sv (cast (q_p (o_k o))).
Definition sensed_c (si : T -> T) (o : cout) : T := si (cast (out_flux o)).
Theorem C145_limits : forall step sv si (o : cout), q_gnd (o_k o) = false -> o_pval o = true -> (0 < step)%Z ->
  o_en o = true -> o_limon o = true -> (o_lflips o < o_flips o)%nat ->
  let x := out_self sq cast step sv si o in is_rej (snd x) = false ->
  let v := sensed_v sv o in let c := sensed_c si o in
  let over t y := (n0 <~ t_limit t) = true -> (t_limit t <~ y) = false in
  let under t y := (n0 <~ t_limit t) = true -> (y <~ t_limit t) = false in
  o_lim (fst x) = o_lim o /\
  if is_voltage (o_type o) then
    match o_lim o with
    | NO_LIMIT => over (o_oc o) c
    | LIMIT_OC => (cast (match o_type o with TRANSFORMER => o_set o *~ o_vin o | _ => o_set o end) <~ v) = false
    | _ => True
    end
  else
    match o_lim o with
    | NO_LIMIT => over (o_ov o) v /\ under (o_uv o) v
    | LIMIT_OV => under (o_uv o) v /\ (current_setpoint sq cast o <~ c) = false
    | LIMIT_UV => over (o_ov o) v /\ (t_limit (o_uv o) <~ v) = false /\ (c <~ current_setpoint sq cast o) = false /\ ((n0 <~ t_limit (o_uv o)) = true -> over (o_oc o) c)
    | LIMIT_OC => over (o_ov o) v /\ (t_limit (o_uv o) <~ v) = false
    end.
Proof.
  intros step sv si o G PV ST EN LI FL x RJ v c over under. unfold x, out_self in *. clear x.
  assert (NB : forall r nr (p : cout), is_rej (snd (update_bias r step nr p)) = false -> is_rej r = false /\ (fst (update_bias r step nr p) = p \/ o_rev p = false /\ fst (update_bias r step nr p) = o_with_bias p false (o_rflips p))).
  { intros r nr p. unfold update_bias. set (y := if match o_lim p with LIMIT_OC => true | NO_LIMIT => _ | _ => false end then _ else _).
    assert (Y : y = o_with_bias p false (o_rflips p) \/ y = p \/ y = o_with_bias p true (S (o_rflips p)) /\ o_rev p = false).
    { unfold y. destruct (match o_lim p with LIMIT_OC => true | NO_LIMIT => _ | _ => false end); [auto|]. destruct (_ <=~ _); [auto|].
      destruct (_ && negb (o_rev p || nr)) eqn:B; [|auto]. right. right. apply andb_true_iff in B as [_ B]. apply negb_true_iff, orb_false_iff in B as [B _]. auto. }
    clearbody y. destruct (Bool.eqb (o_rev p) (o_rev y)) eqn:E; cbn [fst snd]; [|discriminate]. intro H. split; [exact H|]. apply eqb_prop in E.
    destruct Y as [-> | [-> | (-> & Q)]]; cbn [o_with_bias o_rev] in E; [right; auto|auto|congruence]. }
  assert (SAME : forall r nr (p : cout), is_rej (snd (update_bias r step nr p)) = false -> let q := fst (update_bias r step nr p) in o_lim q = o_lim p /\ o_lflips q = o_lflips p /\ o_k q = o_k p /\ o_ov q = o_ov p /\ o_uv q = o_uv p /\ o_oc q = o_oc p /\ o_pval q = o_pval p /\ o_load q = o_load p /\ fixd q = fixd p).
  { intros r nr p H. destruct (NB r nr p H) as [_ [-> | (_ & ->)]]; cbv zeta; repeat split. }
  destruct (is_rej (snd (update_bias CONFIRM step false o))) eqn:B0.
  { exfalso. destruct (update_bias CONFIRM step false o) as [o1 r1]. cbn [snd] in B0. rewrite B0, andb_false_r in RJ. cbn [snd] in RJ. congruence. }
  pose proof (SAME _ _ _ B0) as S1. cbv zeta in S1. destruct (update_bias CONFIRM step false o) as [o1 r1]. cbn [fst snd] in *. rewrite B0 in RJ |- *.
  replace (0 <? step)%Z with true in * by (symmetry; apply Z.ltb_lt; exact ST). cbn [andb negb] in *.
  destruct S1 as (A1 & A2 & A3 & A4 & A5 & A6 & A7 & A8 & A9).
  assert (IP : fst (input_power o1) = fst (input_power o1)) by reflexivity.
  set (i1 := input_power o1) in *. assert (I1 : o_lim (fst i1) = o_lim o /\ o_lflips (fst i1) = o_lflips o /\ q_p (o_k (fst i1)) = q_p (o_k o) /\ q_flux (o_k (fst i1)) = out_flux o /\ o_ov (fst i1) = o_ov o /\ o_uv (fst i1) = o_uv o /\ o_oc (fst i1) = o_oc o /\ o_load (fst i1) = o_load o /\ fixd (fst i1) = fixd o).
  { unfold i1, input_power. rewrite A3, A7, G, PV. cbn [orb negb fst]. assert (F1 : out_flux o1 = out_flux o) by (unfold out_flux; rewrite A3; reflexivity).
    cbn [o_with_loss o_with_k o_lim o_lflips o_k q_flow q_p q_flux o_ov o_uv o_oc o_load]. rewrite F1. repeat split; try assumption.
    rewrite <- A9. unfold fixd. cbn [o_with_loss o_with_k o_k q_flow q_gnd q_p q_malf q_malfv o_vval o_vin o_en o_type o_limon o_flips o_lead o_set o_g o_avail]. rewrite A3. reflexivity. }
  clearbody i1. destruct i1 as [o2 p]. cbn [fst] in I1. destruct I1 as (I1 & I2 & I3 & I4 & I5 & I6 & I7 & I8 & I9). clear A1 A2 A3 A4 A5 A6 A7 A8 A9 IP o1.
  set (o3 := o_with_power o2 p) in *. change (q_p (o_k o3)) with (q_p (o_k o2)) in *. change (q_flux (o_k o3)) with (q_flux (o_k o2)) in *. rewrite I3, I4 in *.
  fold (sensed_v sv o) (sensed_c si o) in *. fold v c in RJ |- *.
  assert (I : o_lim o3 = o_lim o /\ o_lflips o3 = o_lflips o /\ o_ov o3 = o_ov o /\ o_uv o3 = o_uv o /\ o_oc o3 = o_oc o /\ o_load o3 = o_load o /\ fixd o3 = fixd o) by (repeat split; assumption).
  clearbody o3. clear I1 I2 I3 I4 I5 I6 I7 I8 I9 o2 p. destruct I as (I1 & I2 & I3 & I4 & I5 & I6 & I7).
  pose proof (trips_fixd r1 v c step o3) as TF.
  assert (TT : let o4 := fst (out_trips r1 v c step o3) in o_lim o4 = o_lim o /\ o_lflips o4 = o_lflips o /\ t_limit (o_ov o4) = t_limit (o_ov o) /\ t_limit (o_uv o4) = t_limit (o_uv o) /\ t_limit (o_oc o4) = t_limit (o_oc o) /\ o_load o4 = o_load o).
  { assert (TL : forall d t r y, t_limit (fst (fst (check_for_trip d t r y step))) = t_limit t).
    { intros. unfold check_for_trip. destruct (t_inh t) eqn:Q; repeat match goal with |- context [if ?b then _ else _] => destruct b end; try reflexivity; destruct r; reflexivity. }
    cbv zeta. unfold out_trips. destruct (o_en o3); [|cbn [fst]; rewrite I1, I2, I3, I4, I5, I6; repeat split].
    assert (U : forall (t : bool), t_limit (o_ov o3) = t_limit (o_ov o)) by (intros; rewrite I3; reflexivity).
    destruct (negb (o_limon o3 && negb (is_voltage (o_type o3)))); destruct (negb (o_limon o3)).
    - pose proof (TL GreaterThan (o_ov o3) r1 v) as X1. destruct (check_for_trip GreaterThan (o_ov o3) r1 v step) as [[t1 s1] u1].
      pose proof (TL LessThan (o_uv o3) s1 v) as X2. destruct (check_for_trip LessThan (o_uv o3) s1 v step) as [[t2 s2] u2].
      pose proof (TL GreaterThan (o_oc o3) s2 c) as X3. destruct (check_for_trip GreaterThan (o_oc o3) s2 c step) as [[t3 s3] u3]. cbn in *. rewrite X1, X2, X3, I1, I2, I3, I4, I5, I6. repeat split.
    - pose proof (TL GreaterThan (o_ov o3) r1 v) as X1. destruct (check_for_trip GreaterThan (o_ov o3) r1 v step) as [[t1 s1] u1].
      pose proof (TL LessThan (o_uv o3) s1 v) as X2. destruct (check_for_trip LessThan (o_uv o3) s1 v step) as [[t2 s2] u2]. cbn in *. rewrite X1, X2, I1, I2, I3, I4, I5, I6. repeat split.
    - pose proof (TL GreaterThan (o_oc o3) r1 c) as X3. destruct (check_for_trip GreaterThan (o_oc o3) r1 c step) as [[t3 s3] u3]. cbn in *. rewrite X3, I1, I2, I3, I4, I5, I6. repeat split.
    - cbn. rewrite I1, I2, I3, I4, I5, I6. repeat split. }
  cbv zeta in TT. destruct (out_trips r1 v c step o3) as [o4 r4]. cbn [fst] in *. destruct TT as (T1 & T2 & T3 & T4 & T5 & T6). rewrite I7 in TF. clear I1 I2 I3 I4 I5 I6 I7 o3.
  destruct (update_limit sq cast r4 v c o4) as [[o5 r5] nr] eqn:U.
  assert (B5 : is_rej (snd (update_bias r5 step nr o5)) = false) by (destruct (update_bias r5 step nr o5); exact RJ).
  pose proof (SAME _ _ _ B5) as S5. pose proof (NB _ _ _ B5) as [N5 _]. cbv zeta in S5. destruct S5 as (S5 & _).
  destruct (update_bias r5 step nr o5) as [o6 r6]. cbn [fst snd] in *. change (o_lim (o_with_pval o6 (negb (is_rej r6)))) with (o_lim o6). rewrite S5. clear S5 RJ B5 o6 r6.
  assert (F := TF). unfold fixd in F. injection F as F1 F2 F3 F4 F5 F6 F7 F8 F9 F10 F11 F12 F13 F14.
  assert (CS : current_setpoint sq cast o4 = current_setpoint sq cast o) by (unfold current_setpoint, blocked; rewrite F3, F4, F8, F12, T6; reflexivity).
  assert (VS : voltage_setpoint cast o4 = cast (match o_type o with TRANSFORMER => o_set o *~ o_vin o | _ => o_set o end)) by (unfold voltage_setpoint; rewrite F8, F12, F6; reflexivity).
  unfold update_limit in U. rewrite F7, F9, EN, LI in U. cbn [andb] in U. rewrite F8 in U. unfold over, under.
  destruct (is_voltage (o_type o)).
  - unfold update_current_limit, reject_with in U. rewrite T1, T2, F10, T5, VS in U. apply Nat.ltb_lt in FL. rewrite FL, andb_true_r in U.
    destruct (o_lim o) eqn:OL.
    + destruct ((n0 <~ t_limit (o_oc o)) && (t_limit (o_oc o) <~ c)) eqn:Q; injection U as <- <- <-; [discriminate N5|]. split; [exact T1|]. intro H. rewrite H in Q. exact Q.
    + destruct (_ <~ v) eqn:Q; injection U as <- <- <-; [discriminate N5|]. split; [exact T1|reflexivity].
    + injection U as <- <- <-. split; [exact T1|exact Logic.I].
    + injection U as <- <- <-. split; [exact T1|exact Logic.I].
  - unfold update_voltage_limit, reject_with in U. rewrite T1, T2, F10, T3, T4, T5, CS in U. apply Nat.ltb_lt in FL. rewrite FL, !andb_true_r in U.
    destruct (o_lim o) eqn:OL.
    + destruct ((n0 <~ t_limit (o_ov o)) && (t_limit (o_ov o) <~ v)) eqn:Q; [injection U as <- <- <-; discriminate N5|].
      destruct ((n0 <~ t_limit (o_uv o)) && (v <~ t_limit (o_uv o))) eqn:Q2; injection U as <- <- <-; [discriminate N5|]. split; [exact T1|]. split; intro H; [rewrite H in Q|rewrite H in Q2]; assumption.
    + destruct ((n0 <~ t_limit (o_ov o)) && (t_limit (o_ov o) <~ v)) eqn:Q; [injection U as <- <- <-; discriminate N5|].
      destruct (t_limit (o_uv o) <~ v) eqn:Q2; injection U as <- <- <-; [discriminate N5|]. split; [exact T1|]. split; [intro H; rewrite H in Q; assumption|reflexivity].
    + destruct ((n0 <~ t_limit (o_uv o)) && (v <~ t_limit (o_uv o))) eqn:Q; [injection U as <- <- <-; discriminate N5|].
      destruct ((current_setpoint sq cast o <~ c) || (n0 ==~ current_setpoint sq cast o)) eqn:Q2; injection U as <- <- <-; [discriminate N5|]. apply orb_false_iff in Q2 as [Q2 _]. split; [exact T1|]. split; [intro H; rewrite H in Q; assumption|assumption].
    + destruct ((n0 <~ t_limit (o_oc o)) && (n0 <~ t_limit (o_uv o)) && (t_limit (o_oc o) <~ c)) eqn:Q; [injection U as <- <- <-; discriminate N5|].
      destruct ((n0 <~ t_limit (o_ov o)) && (t_limit (o_ov o) <~ v)) eqn:Q1; [injection U as <- <- <-; discriminate N5|].
      destruct ((t_limit (o_uv o) <~ v) || (c <~ current_setpoint sq cast o)) eqn:Q2; injection U as <- <- <-; [discriminate N5|]. apply orb_false_iff in Q2 as [Q2 Q3].
      split; [exact T1|]. split; [intro H; rewrite H in Q1; exact Q1|]. split; [exact Q2|]. split; [exact Q3|]. intros H1 H2. rewrite H1, H2 in Q. exact Q.
Qed.
End DECIDE.
Print Assumptions C145_limits.
Print Assumptions C145_settles_alone.
Print Assumptions C145_settles.

(** ** A pair of which one side lies on Ground *)
Section SPARE.
Context {T : Type} {N : Num T}.
Variable sq cast : T -> T.
Variable table : option (T -> T).

Lemma stuck f e (s : cin T * cout T) : pair_pass sq cast table f e s = (s, true) -> forall n, snd (pair_passes sq cast table f (repeat e n) s) = n.
Proof.
  intros H. induction n as [|n IH]; [reflexivity|]. cbn [repeat pair_passes]. rewrite H. destruct s as [i o].
  destruct (pair_passes sq cast table f (repeat e n) (i, o)) as [x c]. cbn [snd] in *. lia.
Qed.
Lemma load_facts (i : cin T) : q_gnd (n_k (in_load table i)) = q_gnd (n_k i) /\ n_vval (in_load table i) = n_vval i.
Proof. unfold in_load. destruct (negb _); split; reflexivity. Qed.
Lemma input_power_facts (o : cout T) : q_gnd (o_k (fst (input_power o))) = q_gnd (o_k o) /\ o_pval (fst (input_power o)) = o_pval o.
Proof. unfold input_power. destruct (_ || _); split; reflexivity. Qed.
Lemma drive_facts m (o : cout T) : q_gnd (o_k (out_drive sq m o)) = q_gnd (o_k o) /\ o_pval (out_drive sq m o) = o_pval o.
Proof.
  unfold out_drive. set (o1 := estimate_load _). assert (E : q_gnd (o_k o1) = q_gnd (o_k o) /\ o_pval o1 = o_pval o) by (unfold o1; destruct (Nat.eqb 1 m); split; reflexivity).
  clearbody o1. destruct (if _ && _ && _ then _ else _) as [[g v] c]. destruct (n0 <~ _); cbn; assumption.
Qed.
Lemma in_minor_facts (i : cin T) mo : let x := in_minor table i mo in
  q_gnd (n_k (fst x)) = q_gnd (n_k i) /\ n_vval (fst x) = n_vval i /\
  match mo, snd x with Some o, Some o' => q_gnd (o_k o') = q_gnd (o_k o) /\ o_pval o' = o_pval o | None, None => True | _, _ => False end.
Proof.
  cbv zeta. unfold in_minor. destruct (q_gnd (n_k i)) eqn:G; [cbn; repeat split; [exact G|destruct mo; auto]|].
  destruct mo as [o|]; [|cbn [fst snd]; destruct (load_facts (n_with_power (n_with_volt i (input_voltage i)) (n_pin (n_with_volt i (input_voltage i))) true)) as [A B]; rewrite A, B; cbn; auto].
  change (n_lead (n_with_volt i (input_voltage i))) with (n_lead i). destruct (n_lead i).
  - pose proof (input_power_facts o) as P. destruct (input_power o) as [o' p]. cbn [fst snd] in *.
    match goal with |- context [in_load table ?j] => destruct (load_facts j) as [A B]; rewrite A, B end. cbn. tauto.
  - cbn [fst snd]. match goal with |- context [in_load table ?j] => destruct (load_facts j) as [A B]; rewrite A, B end. cbn. auto.
Qed.
Lemma out_minor_facts m (o : cout T) mi : let x := out_minor sq m o mi in
  q_gnd (o_k (fst x)) = q_gnd (o_k o) /\ o_pval (fst x) = o_pval o /\
  match mi, snd x with Some i, Some i' => q_gnd (n_k i') = q_gnd (n_k i) /\ n_vval i' = n_vval i | None, None => True | _, _ => False end.
Proof.
  cbv zeta. unfold out_minor. change (o_k (o_with_src o n0)) with (o_k o). destruct (q_gnd (o_k o)) eqn:G; [cbn; repeat split; [exact G|destruct mi; auto]|].
  pose proof (input_power_facts (o_with_src o n0)) as P. destruct (input_power (o_with_src o n0)) as [o' p]. cbn [fst snd] in P. change (q_gnd (o_k (o_with_src o n0))) with (q_gnd (o_k o)) in P. change (o_pval (o_with_src o n0)) with (o_pval o) in P.
  destruct P as [P1 P2]. rewrite G in P1. destruct mi as [i|].
  - change (o_lead (o_with_power o' p)) with (o_lead o'). destruct (o_lead o'); cbn [fst snd]; match goal with |- context [out_drive sq m ?j] => destruct (drive_facts m j) as [A B]; rewrite A, B end; cbn; auto.
  - cbn [fst snd]; match goal with |- context [out_drive sq m ?j] => destruct (drive_facts m j) as [A B]; rewrite A, B end; cbn; auto.
Qed.
Lemma in_self_gnd' step sv (i : cin T) : q_gnd (n_k (fst (in_self cast step sv i))) = q_gnd (n_k i).
Proof. apply in_self_gnd. Qed.

Definition half_grounded (i : cin T) (o : cout T) : Prop :=
  q_gnd (n_k i) = false /\ q_gnd (o_k o) = true /\ o_pval o = false \/ q_gnd (n_k i) = true /\ q_gnd (o_k o) = false /\ n_vval i = false.

(** One side on Ground keeps the other from accepting any solution, so the network never converges. *)
Theorem C145_ground_refuted : forall f es (i : cin T) (o : cout T), q_gnd (n_k i) <> q_gnd (o_k o) -> Forall (fun e => (0 < e_step e)%Z) es ->
  (length es <= S (snd (pair_passes sq cast table f es (i, o))))%nat /\
  (half_grounded i o -> snd (pair_passes sq cast table f es (i, o)) = length es).
Proof.
  assert (P : forall f e (i : cin T) (o : cout T), q_gnd (n_k i) <> q_gnd (o_k o) -> (0 < e_step e)%Z ->
    let x := pair_pass sq cast table f e (i, o) in half_grounded (fst (fst x)) (snd (fst x)) /\ (half_grounded i o -> snd x = true)).
  { intros f e i o D ST. cbv zeta. unfold pair_pass.
    set (m := if e_skip e then _ else _). assert (M : q_gnd (n_k (fst m)) = q_gnd (n_k i) /\ n_vval (fst m) = n_vval i /\ q_gnd (o_k (snd m)) = q_gnd (o_k o) /\ o_pval (snd m) = o_pval o).
    { unfold m. destruct (e_skip e); [auto|]. destruct f.
      - pose proof (in_minor_facts i (Some o)) as A. cbv zeta in A. destruct (in_minor table i (Some o)) as [i1 [o1|]]; cbn [fst snd] in A; [|tauto].
        pose proof (out_minor_facts (e_minor e) o1 (Some i1)) as B. cbv zeta in B. destruct (out_minor sq (e_minor e) o1 (Some i1)) as [o2 [i2|]]; cbn [fst snd] in *; intuition congruence.
      - pose proof (out_minor_facts (e_minor e) o (Some i)) as A. cbv zeta in A. destruct (out_minor sq (e_minor e) o (Some i)) as [o1 [i1|]]; cbn [fst snd] in A; [|tauto].
        pose proof (in_minor_facts i1 (Some o1)) as B. cbv zeta in B. destruct (in_minor table i1 (Some o1)) as [i2 [o2|]]; cbn [fst snd] in *; intuition congruence. }
    clearbody m. destruct m as [i1 o1]. cbn [fst snd] in M. destruct M as (M1 & M2 & M3 & M4).
    set (i2 := n_with_k i1 _). set (o2 := o_with_k o1 _).
    assert (I2 : q_gnd (n_k i2) = q_gnd (n_k i) /\ n_vval i2 = n_vval i /\ q_gnd (o_k o2) = q_gnd (o_k o) /\ o_pval o2 = o_pval o) by (unfold i2, o2; auto).
    clearbody i2 o2. destruct I2 as (I1 & I2 & I3 & I4).
    assert (IB : forall (j : cin T) s, q_gnd (n_k (in_back s j)) = q_gnd (n_k j) /\ n_vval (in_back s j) = n_vval j) by (intros j s; unfold in_back; destruct (_ && _); split; reflexivity).
    assert (FIN : forall (j : cin T) (q : cout T) (r : bool), half_grounded j q -> (half_grounded i o -> r = true) ->
       let x := (if r || e_rej e then (in_back (e_step e) (n_with_k j (q_pot (n_k j) (e_bi e))), out_back (o_with_k q (q_pot (o_k q) (e_bo e))), r) else (j, q, r)) in
       half_grounded (fst (fst x)) (snd (fst x)) /\ (half_grounded i o -> snd x = true)).
    { intros j q r H1 H2. cbv zeta. destruct (r || e_rej e); cbn [fst snd]; [|auto]. split; [|exact H2].
      unfold half_grounded. destruct (IB (n_with_k j (q_pot (n_k j) (e_bi e))) (e_step e)) as [-> ->]. cbn. destruct H1 as [H1|H1]; [left|right]; intuition. }
    assert (ST' : (0 =? e_step e)%Z = false) by (apply Z.eqb_neq; lia).
    assert (OS : forall q : cout T, q_gnd (o_k (fst (out_self sq cast (e_step e) (e_svo e) (e_sio e) q))) = q_gnd (o_k q)) by (intro q; apply self_gnd).
    assert (IS : forall j : cin T, q_gnd (n_k (fst (in_self cast (e_step e) (e_svi e) j))) = q_gnd (n_k j)) by (intro j; apply in_self_gnd).
    unfold in_confirm, out_confirm. rewrite ST', I1, I3.
    destruct (q_gnd (n_k i)) eqn:Gi, (q_gnd (o_k o)) eqn:Go; try congruence.
    - pose proof (OS o2) as Q. destruct (out_self sq cast (e_step e) (e_svo e) (e_sio e) o2) as [o3 r]. cbn [fst] in Q. destruct f; cbv beta iota zeta; match goal with |- context [if ?r || e_rej e then (in_back _ (n_with_k ?j _), out_back (o_with_k ?q _), _) else _] => apply (FIN j q r) end.
      + right. cbn. rewrite I1, Q, I3. auto.
      + reflexivity.
      + right. cbn. rewrite I1, Q, I3. auto.
      + intros [(? & _)|(_ & _ & V)]; [congruence|]. rewrite I2, V. reflexivity.
    - pose proof (IS i2) as Q. destruct (in_self cast (e_step e) (e_svi e) i2) as [i3 r]. cbn [fst] in Q. destruct f; cbv beta iota zeta; match goal with |- context [if ?r || e_rej e then (in_back _ (n_with_k ?j _), out_back (o_with_k ?q _), _) else _] => apply (FIN j q r) end.
      + left. cbn. rewrite I3, Q, I1. auto.
      + intros [(_ & _ & V)|(? & _)]; [|congruence]. rewrite I4, V. reflexivity.
      + left. cbn. rewrite I3, Q, I1. auto.
      + reflexivity. }
  intros f es. induction es as [|e es IH]; intros i o D F; [cbn; split; [lia|auto]|]. inversion F as [|? ? F1 F2]; subst.
  pose proof (P f e i o D F1) as X. cbv zeta in X. cbn [pair_passes]. destruct (pair_pass sq cast table f e (i, o)) as [[i1 o1] r]. cbn [fst snd] in X. destruct X as [X1 X2].
  assert (D1 : q_gnd (n_k i1) <> q_gnd (o_k o1)) by (destruct X1 as [X|X]; destruct X as (A & B & _); rewrite A, B; discriminate).
  destruct (IH i1 o1 D1 F2) as [_ Y]. specialize (Y X1). destruct (pair_passes sq cast table f es (i1, o1)) as [s c]. cbn [snd length] in *. split; [destruct r; lia|]. intro H. rewrite (X2 H). lia.
Qed.
End SPARE.
Print Assumptions C145_ground_refuted.

(** ** Witnesses in binary64 *)
Definition idf (x : float) : float := x.
Definition kf (g : bool) (p : float) : port float := mkport g p 0%float 0%float false 0%float 0%float 0%float false 0%float.
Definition i_ex (g : bool) : option (cin float) := in_init None (kf g 100%float) 1 0%float 0%float true 100%float 0%float 0%float.
Definition o_ex (g : bool) : option (cout float) := out_init (kf g 28%float) VOLTAGE false 1%float 1%float 5 1 0%float 0%float 0%float true 100%float 0%float 28%float.
Definition e_ex (rej : bool) : env float := mkenv false 2 1 100%float 28%float idf idf idf rej 100%float 28%float.

(** The input link comes first: after another link has rejected one solution, the pair rejects the
    next one, which is the same, and the one after that, for ever; with the output link first it accepts. *)
Theorem C145_order_refuted : exists (i : cin float) (o : cout float),
  i_ex false = Some i /\ o_ex false = Some o /\
  snd (pair_pass idf idf None true (e_ex true) (in_leads i, o)) = false /\
  (forall n, snd (pair_passes idf idf None true (e_ex true :: repeat (e_ex false) n) (in_leads i, o)) = n) /\
  (forall n, snd (pair_passes idf idf None false (e_ex true :: repeat (e_ex false) n) (i, out_leads o)) = 0%nat).
Proof.
  destruct (i_ex false) as [i|] eqn:I; [|discriminate I]. destruct (o_ex false) as [o|] eqn:Q; [|discriminate Q].
  exists i, o. split; [reflexivity|]. split; [reflexivity|]. vm_compute in I, Q. injection I as <-. injection Q as <-.
  split; [vm_compute; reflexivity|]. split; intro n.
  - cbn [pair_passes]. match goal with |- context [pair_pass idf idf None true (e_ex true) ?s] => remember (pair_pass idf idf None true (e_ex true) s) as x eqn:X end.
    vm_compute in X. subst x. cbn [fst snd].
    destruct n as [|n]; [reflexivity|]. cbn [repeat pair_passes].
    match goal with |- context [pair_pass idf idf None true (e_ex false) ?s] => remember (pair_pass idf idf None true (e_ex false) s) as x eqn:X end.
    vm_compute in X. subst x.
    match goal with |- context [pair_passes _ _ _ _ (repeat _ _) ?s] => pose proof (stuck idf idf None true (e_ex false) s) as L; assert (Z : pair_pass idf idf None true (e_ex false) s = (s, true)) by (vm_compute; reflexivity); specialize (L Z n) end.
    match goal with |- context [pair_passes ?a ?b ?c ?d ?e ?s] => destruct (pair_passes a b c d e s) as [y m] end. cbn [snd] in *. lia.
  - cbn [pair_passes]. match goal with |- context [pair_pass idf idf None false (e_ex true) ?s] => remember (pair_pass idf idf None false (e_ex true) s) as x eqn:X end.
    vm_compute in X. subst x. cbn [fst snd].
    destruct n as [|n]; [reflexivity|]. cbn [repeat pair_passes].
    match goal with |- context [pair_pass idf idf None false (e_ex false) ?s] => remember (pair_pass idf idf None false (e_ex false) s) as x eqn:X end.
    vm_compute in X. subst x. cbn [fst snd].
    destruct n as [|n]; [reflexivity|]. cbn [repeat pair_passes].
    match goal with |- context [pair_pass idf idf None false (e_ex false) ?s] => remember (pair_pass idf idf None false (e_ex false) s) as x eqn:X end.
    vm_compute in X. subst x. cbn [fst snd].
    match goal with |- context [pair_passes _ _ _ _ (repeat _ _) ?s] => assert (Z : pair_pass idf idf None false (e_ex false) s = (s, false)) by (vm_compute; reflexivity);
      assert (L : snd (pair_passes idf idf None false (repeat (e_ex false) n) s) = 0%nat) end.
    { induction n as [|n IH]; [reflexivity|]. cbn [repeat pair_passes]. rewrite Z. match goal with |- context [pair_passes ?a ?b ?c ?d ?e ?s] => destruct (pair_passes a b c d e s) as [y m] end. exact IH. }
    match goal with |- context [pair_passes ?a ?b ?c ?d ?e ?s] => destruct (pair_passes a b c d e s) as [y m] end. exact L.
Qed.
Print Assumptions C145_order_refuted.

(** Limits are looked at with an old current after a rejection: the reverse bias ends, the solution is
    rejected, and the next one is accepted with 800 A where the limit is 10 A. *)
Theorem C145_stale_refuted : exists (o : cout float),
  out_init (kf false 30%float) VOLTAGE true 100%float 1%float 5 1 0%float 0%float 10%float true 100%float 0%float 28%float = Some o /\
  let turn o := out_confirm idf idf 1 idf idf (let o := fst (out_minor idf 2 o None) in o_with_k o (q_pot (o_k o) 20%float)) None in
  let x := turn o in let y := turn (out_back (o_with_k (fst x) (q_pot (o_k (fst x)) 20%float))) in
  snd x = REJECT /\ snd y = CONFIRM /\ out_flux (fst y) = 800%float /\ t_limit (o_oc (fst y)) = 10%float /\ o_lflips (fst y) = 0%nat /\ snd (turn (fst y)) = REJECT.
Proof. eexists. split; [reflexivity|]. vm_compute. repeat split; reflexivity. Qed.
Print Assumptions C145_stale_refuted.

(** The hypotheses of [C145_settles] and [C145_limits] hold of a new pair. *)
Example C145_start : exists (i : cin float) (o : cout float),
  i_ex false = Some i /\ o_ex false = Some o /\ q_gnd (n_k i) = false /\ q_gnd (o_k o) = false /\ o_rflips o = 0%nat /\ o_lflips o = 0%nat /\ o_pval o = true /\ o_en o = true.
Proof. do 2 eexists. split; [reflexivity|]. split; [reflexivity|]. repeat split; reflexivity. Qed.
