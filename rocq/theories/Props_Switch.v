(** C66-C68: what one update does to a switch, for every state and every number
    type. *)
From Coq Require Import Floats Reals Lra Lia List Arith Bool ZArith.
From Verif Require Import Num Ord Trip TripFacts.
Import ListNotations.

Section SW.
Context {T : Type} {N : Num T}.
Implicit Types s : sw (T := T).

(** ** C66: the position after a state update. *)
Theorem C66_switch_position : forall supply s,
  s_closed (update_state supply s) =
    if negb supply then false
    else if s_fclosed s then true
    else if s_fopen s then false
    else if s_pos s || s_neg s || s_ext s || s_wait s then s_closed s
    else s_cmd s.
Proof.
  intros supply s. unfold update_state, s_tripped. cbn [s_closed].
  destruct supply, (s_fclosed s), (s_fopen s), (s_pos s), (s_neg s), (s_ext s), (s_wait s); reflexivity.
Qed.

(** Trips clear exactly on lost power, on a reset, or when a tripped switch is
    commanded open. *)
Theorem C66_switch_trip_clears : forall supply s,
  let s' := update_state supply s in
  let clear := negb supply || s_reset s || (s_pos s || s_neg s || s_ext s) && negb (s_cmd s) in
  s_pos s' = (if clear then false else s_pos s) /\ s_neg s' = (if clear then false else s_neg s) /\
  s_ext s' = (if clear then false else s_ext s) /\ s_wait s' = (if clear then false else s_wait s) /\
  s_reset s' = false /\ s_cmd s' = supply && s_cmd s /\
  s_prot s' = negb (s_ign s) && s_prot s /\
  s_apos s' = match s_mpos s with Some v => v | None => s_dpos s end /\
  s_aneg s' = match s_mneg s with Some v => v | None => s_dneg s end.
Proof.
  intros supply s. cbv zeta. unfold update_state, s_tripped.
  cbn [s_pos s_neg s_ext s_wait s_reset s_cmd s_prot s_apos s_aneg].
  destruct supply, (s_pos s), (s_neg s), (s_ext s), (s_wait s), (s_reset s), (s_cmd s), (s_ign s);
    repeat split; reflexivity.
Qed.

(** An open switch conducts nothing; a closed one conducts 1/R. *)
Theorem C66_switch_conductance : forall s,
  (s_closed s = false -> conductance s = n0) /\
  (s_closed s = true -> (n0 <~ s_ares s) = true -> conductance s = n1 /~ s_ares s).
Proof.
  intro s. unfold conductance. split; intro H; rewrite H; auto. intro H2. now rewrite H2.
Qed.
Theorem C66_switch_resistance : forall supply s,
  let s' := update_state supply s in
  (s_fres s = false -> (n0 <~ s_dres s) = true -> (s_dres s <=~ n0) = false -> s_ares s' = s_dres s) /\
  (s_fres s = true -> s_ares s' = s_dres s' *~ s_fpct s').
Proof.
  intros supply s. cbv zeta. unfold update_state. cbn [s_ares s_dres s_fpct]. split.
  - intros H1 H2 H3. now rewrite H1, H3.
  - intro H1. now rewrite H1.
Qed.

(** ** C67: what a flow update does. *)
Theorem C67_flow_trips : forall s a b v k m,
  s_fclosed s = false -> s_prot s = true ->
  let s' := update_flow a b v k m s in
  let p := over s (seen s b) in let n := under s (seen s b) in
  s_pos s' = (if p then at_prio s k else s_pos s) /\
  s_neg s' = (if n then at_prio s k else s_neg s) /\
  s_ext s' = s_ext s /\
  s_closed s' = s_closed s && negb (at_prio s k && (p || n)) && negb (s_ext s) /\
  s_sens s' = seen s b /\ s_volt s' = v.
Proof.
  intros s a b v k m H1 H2. cbv zeta. rewrite update_flow_form. cbv zeta. sw_cbn. rewrite H1, H2. sw_cbn.
  repeat split; auto. destruct (s_closed s), (at_prio s k), (over _ _), (under _ _), (s_ext s); reflexivity.
Qed.

(** Without protection, or failed closed, no trip changes and only an external
    trip opens the switch. *)
Theorem C67_flow_unprotected : forall s a b v k m,
  s_fclosed s = true \/ s_prot s = false ->
  let s' := update_flow a b v k m s in
  s_pos s' = s_pos s /\ s_neg s' = s_neg s /\ s_wait s' = false /\
  s_closed s' = s_closed s && (s_fclosed s || negb (s_ext s)).
Proof.
  intros s a b v k m H. cbv zeta. rewrite update_flow_form. cbv zeta. sw_cbn.
  destruct H as [H|H]; rewrite H; rewrite ?andb_false_r; sw_cbn; repeat split; auto.
  destruct (s_fclosed s), (s_ext s); reflexivity.
Qed.

(** Waiting exactly when a limit is exceeded before the priority step. *)
Theorem C67_flow_waits : forall s a b v k m,
  s_fclosed s = false -> s_prot s = true -> s_ext s && s_closed s = false ->
  s_wait (update_flow a b v k m s) =
    (over s (seen s b) || under s (seen s b)) && negb (at_prio s k).
Proof.
  intros s a b v k m H1 H2 H3. rewrite update_flow_form. cbv zeta. sw_cbn. rewrite H1, H2. sw_cbn. rewrite H3. sw_cbn.
  rewrite andb_true_r. reflexivity.
Qed.

(** An open switch carries no current and dissipates nothing; the power of a
    closed one is I^2/G; a major step reports a fresh trip exactly when one
    happened in it. *)
Theorem C67_flow_outputs : forall s a b v k m,
  let s' := update_flow a b v k m s in
  s_cur s' = (if s_closed s' then a else n0) /\
  s_power s' = (if n0 <~ conductance s' then nabs (s_cur s' *~ s_cur s') /~ conductance s' else n0) /\
  s_just s' = (if m then s_just s
               else (s_pos s' || s_neg s' || s_ext s') && negb (s_pos s || s_neg s || s_ext s)).
Proof.
  intros s a b v k m. cbv zeta. rewrite update_flow_form. cbv zeta. unfold conductance. sw_cbn.
  repeat split.
Qed.

(** Accepted configuration data: exactly the valid ones. *)
Theorem C66_switch_init : forall resist protect twoport port prio closed pos neg s,
  sw_init (T := T) resist protect twoport port prio closed pos neg = Some s <->
  ((n0 <~ resist) = true /\ (if twoport then port <> 0 else port <= 0)%Z /\ (1 <= prio)%Z /\
   (twoport = false -> prio <= 1)%Z /\ (pos <~ n0) = false /\ (n0 <~ neg) = false) /\
  s = {| s_fclosed := false; s_fopen := false; s_fres := false; s_fpct := ndec 100 0;
         s_mpos := None; s_mneg := None; s_ign := false;
         s_cur := n0; s_sens := n0; s_volt := n0; s_power := n0;
         s_cmd := closed; s_closed := closed; s_pos := false; s_neg := false; s_ext := false;
         s_wait := false; s_just := false; s_prio := prio; s_reset := false;
         s_dres := resist; s_ares := resist; s_prot := protect;
         s_dpos := pos; s_apos := pos; s_dneg := neg; s_aneg := neg |}.
Proof.
  intros. unfold sw_init.
  destruct (n0 <~ resist) eqn:E1; [|split; [discriminate|intros ((H & _) & _); discriminate]].
  destruct twoport.
  - destruct (Z.eqb_spec port 0); [split; [discriminate|intros ((_ & H & _) & _); contradiction]|].
    destruct (Z.ltb_spec prio 1); [split; [discriminate|intros ((_ & _ & H0 & _) & _); lia]|].
    cbn [negb andb].
    destruct (pos <~ n0) eqn:E2; [split; [discriminate|intros ((_ & _ & _ & _ & H0 & _) & _); discriminate]|].
    destruct (n0 <~ neg) eqn:E3; [split; [discriminate|intros ((_ & _ & _ & _ & _ & H0) & _); discriminate]|].
    split.
    + intro H0. injection H0 as <-. repeat split; auto; discriminate.
    + intros (_ & ->). reflexivity.
  - destruct (Z.ltb_spec 0 port); [split; [discriminate|intros ((_ & H0 & _) & _); lia]|].
    destruct (Z.ltb_spec prio 1); [split; [discriminate|intros ((_ & _ & H1 & _) & _); lia]|].
    cbn [negb andb].
    destruct (Z.ltb_spec 1 prio); [split; [discriminate|intros ((_ & _ & _ & H2 & _) & _); specialize (H2 eq_refl); lia]|].
    destruct (pos <~ n0) eqn:E2; [split; [discriminate|intros ((_ & _ & _ & _ & H2 & _) & _); discriminate]|].
    destruct (n0 <~ neg) eqn:E3; [split; [discriminate|intros ((_ & _ & _ & _ & _ & H2) & _); discriminate]|].
    split.
    + intro H2. injection H2 as <-. repeat split; auto.
    + intros (_ & ->). reflexivity.
Qed.
End SW.

Example C66_init_example : exists s, sw_init (T := float) 0.01%float true true 1 1 true 10%float (-10)%float = Some s.
Proof. eexists. reflexivity. Qed.

(** ** C68: GunnsElectSwitchUtil2 *)
Section SW2.
Context {T : Type} {N : Num T}.
Variable tofloat : T -> T.
Implicit Types s : sw2 (T := T).

Definition any_trip s : bool :=
  t_trip (w_uv s) || t_trip (w_ov s) || t_trip (w_pc s) || t_trip (w_nc s).

(** Trips clear exactly on a reset command or when a tripped switch is commanded
    open; the resistance is kept at or above FLT_EPSILON. *)
Theorem C68_switch2_state : forall s,
  let s' := w_update_state s in
  let clear := w_rst s || any_trip s && negb (w_cmd s) in
  any_trip s' = any_trip s && negb clear /\
  w_rst s' = false /\ w_cmd s' = w_cmd s /\
  w_res s' = nmax (w_res s) flt_epsilon /\
  w_pos s' = (if w_fclosed s then true else if w_fopen s then false
              else if (any_trip s || w_wait s) && negb clear then w_pos s else w_cmd s).
Proof.
  intros s. cbv zeta.
  pose (s1 := apply_constraints s).
  assert (A1 : any_trip s1 = any_trip s /\ w_rst s1 = w_rst s /\ w_cmd s1 = w_cmd s /\
               w_res s1 = nmax (w_res s) flt_epsilon /\ w_fclosed s1 = w_fclosed s /\
               w_fopen s1 = w_fopen s /\ w_wait s1 = w_wait s /\ w_pos s1 = w_pos s)
    by (repeat split; reflexivity).
  unfold w_update_state. cbv zeta. fold s1. clearbody s1.
  destruct A1 as (<- & <- & <- & <- & <- & <- & <- & <-). clear s.
  pose (cl := w_tripped s1 && negb (w_cmd s1)). fold cl.
  pose (s2 := if cl then reset_trips s1 else s1). fold s2.
  pose (s3 := if w_rst s2 then w_with_cmd (reset_trips s2) (w_cmd s2) false else s2). fold s3.
  assert (A3 : any_trip s3 = any_trip s1 && negb (w_rst s1 || cl) /\ w_rst s3 = false /\ w_cmd s3 = w_cmd s1 /\
               w_res s3 = w_res s1 /\ w_fclosed s3 = w_fclosed s1 /\
               w_fopen s3 = w_fopen s1 /\ w_wait s3 = w_wait s1 && negb (w_rst s1 || cl) /\ w_pos s3 = w_pos s1).
  { unfold s3, s2. destruct cl.
    - unfold reset_trips, w_with_cmd, any_trip. cbn [w_rst].
      destruct (w_rst s1) eqn:E; cbn; rewrite ?E; rewrite ?andb_false_r; repeat split; reflexivity.
    - destruct (w_rst s1) eqn:E.
      + unfold reset_trips, w_with_cmd, any_trip. cbn. rewrite ?andb_false_r. repeat split; reflexivity.
      + cbn. rewrite ?andb_true_r. repeat split; auto. }
  fold (w_tripped s1) in *. change (any_trip s1) with (w_tripped s1) in *. fold cl. clearbody s3 s2 cl.
  destruct A3 as (B1 & B2 & B3 & B4 & B5 & B6 & B7 & B8).
  change (any_trip s3) with (w_tripped s3) in *.
  rewrite <- B5, <- B6, <- B3, <- B4, <- B8.
  replace ((w_tripped s1 || w_wait s1) && negb (w_rst s1 || cl)) with (w_tripped s3 || w_wait s3)
    by (rewrite B1, B7; destruct (w_tripped s1), (w_wait s1), (w_rst s1), cl; reflexivity).
  rewrite <- B1. change (any_trip ?x) with (w_tripped x).
  destruct (w_fclosed s3); [repeat split; auto|].
  destruct (w_fopen s3); [repeat split; auto|].
  destruct (w_tripped s3 || w_wait s3); cbn [negb]; repeat split; auto.
Qed.

(** The trip checks: a closed commanded, healthy switch trips exactly when one of
    its four conditions holds at the priority step, and opens. *)
Definition cond (d : side) (t : trip (T := T)) (x : T) : bool :=
  negb (t_inh t) && negb (n0 ==~ t_limit t) && (1 <=? t_prio t)%Z &&
  (t_force t || match d with GreaterThan => t_limit t <~ x | LessThan => x <~ t_limit t end).
Definition now (t : trip (T := T)) (k : Z) : bool := t_force t || (Z.modulo k (2 ^ 32) =? t_prio t)%Z.

Lemma check_cond d t r x k : t_trip t = false ->
  let '(t', r', j) := check_for_trip d t r x k in
  t_trip t' = cond d t x && now t k /\ j = cond d t x && now t k /\
  r' = (if cond d t x then if now t k then REJECT else match r with REJECT => REJECT | _ => DELAY end else r).
Proof.
  intro H. destruct t as [i f l p b]. cbn in H. subst b.
  unfold check_for_trip, cond, now, is_trip_condition, reset_trip, t_with, to_unsigned.
  cbn [t_inh t_force t_limit t_prio t_trip].
  replace (1 <=? p)%Z with (negb (p <? 1)%Z) by (destruct (Z.ltb_spec p 1), (Z.leb_spec 1 p); auto; lia).
  destruct i; cbn [negb orb andb t_trip t_inh t_force t_limit t_prio]; [rewrite ?orb_true_r; cbn; auto|].
  destruct (n0 ==~ l), (p <? 1)%Z, f; cbn [negb orb andb t_trip t_inh t_force t_limit t_prio]; auto.
  destruct d, (l <~ x), (x <~ l), (k mod 2 ^ 32 =? p)%Z; cbn [negb orb andb t_trip];
    destruct r; cbn; auto.
Qed.

Theorem C68_switch2_trips : forall s c v k,
  (0 < k)%Z -> w_cmd s = true -> any_trip s = false -> w_fclosed s = false ->
  let s' := w_update_trips tofloat c v k s in
  let uv := cond LessThan (w_uv s) (tofloat v) in
  let ov := cond GreaterThan (w_ov s) (tofloat v) in
  let pc := cond GreaterThan (w_pc s) (tofloat c) in
  let nc := cond LessThan (w_nc s) (tofloat c) in
  t_trip (w_uv s') = uv && now (w_uv s) k /\ t_trip (w_ov s') = ov && now (w_ov s) k /\
  t_trip (w_pc s') = pc && now (w_pc s) k /\ t_trip (w_nc s') = nc && now (w_nc s) k /\
  w_pos s' = w_pos s && negb (any_trip s') /\ w_just s' = any_trip s' /\
  w_wait s' = (uv || ov || pc || nc) && negb (any_trip s').
Proof.
  intros s c v k Hk Hc Ht Hf. cbv zeta. unfold any_trip in Ht.
  apply orb_false_iff in Ht. destruct Ht as [Ht H4].
  apply orb_false_iff in Ht. destruct Ht as [Ht H3].
  apply orb_false_iff in Ht. destruct Ht as [H1 H2].
  pose proof (check_cond LessThan (w_uv s) CONFIRM (tofloat v) k H1) as K1.
  destruct (check_for_trip LessThan (w_uv s) CONFIRM (tofloat v) k) as [[uv r1] j1] eqn:E1.
  pose proof (check_cond GreaterThan (w_ov s) r1 (tofloat v) k H2) as K2.
  destruct (check_for_trip GreaterThan (w_ov s) r1 (tofloat v) k) as [[ov r2] j2] eqn:E2.
  pose proof (check_cond GreaterThan (w_pc s) r2 (tofloat c) k H3) as K3.
  destruct (check_for_trip GreaterThan (w_pc s) r2 (tofloat c) k) as [[pc r3] j3] eqn:E3.
  pose proof (check_cond LessThan (w_nc s) r3 (tofloat c) k H4) as K4.
  destruct (check_for_trip LessThan (w_nc s) r3 (tofloat c) k) as [[nc r4] j4] eqn:E4.
  unfold w_update_trips. destruct (Z.ltb_spec 0 k); [|lia].
  unfold w_tripped.
  cbn [w_with_flags w_fclosed w_fopen w_res w_pos w_cmd w_rst w_uv w_uvr w_ov w_ovr w_pc w_nc w_wait w_just].
  rewrite H1, H2, H3, H4, Hc, Hf. cbn [orb andb negb].
  rewrite E1, E2, E3, E4.
  destruct K1 as (A1 & _ & B1), K2 as (A2 & _ & B2), K3 as (A3 & _ & B3), K4 as (A4 & _ & B4).
  unfold any_trip.
  set (c1 := cond LessThan (w_uv s) (tofloat v)) in *. set (c2 := cond GreaterThan (w_ov s) (tofloat v)) in *.
  set (c3 := cond GreaterThan (w_pc s) (tofloat c)) in *. set (c4 := cond LessThan (w_nc s) (tofloat c)) in *.
  set (n1' := now (w_uv s) k) in *. set (n2' := now (w_ov s) k) in *.
  set (n3' := now (w_pc s) k) in *. set (n4' := now (w_nc s) k) in *.
  clearbody c1 c2 c3 c4 n1' n2' n3' n4'. clear E1 E2 E3 E4.
  subst r1 r2 r3 r4.
  destruct c1, n1', c2, n2', c3, n3', c4, n4'; cbn [andb] in *;
    cbn [w_with_flags w_with_trips w_with_pos w_fclosed w_fopen w_res w_pos w_cmd w_rst w_uv w_uvr w_ov w_ovr w_pc w_nc w_wait w_just];
    rewrite ?A1, ?A2, ?A3, ?A4; cbn [orb andb negb]; rewrite ?andb_false_r, ?andb_true_r;
    repeat split; reflexivity.
Qed.

(** Automatic reset: a switch held open by one voltage trip closes again when the
    voltage is back inside the reset limit at the priority step. *)
Theorem C68_switch2_auto_reset : forall s c v k,
  (0 < k)%Z -> t_trip (w_uv s) = true -> t_trip (w_ov s) = false -> t_trip (w_pc s) = false ->
  t_trip (w_nc s) = false -> t_trip (w_uvr s) = false -> w_fopen s = false ->
  let s' := w_update_trips tofloat c v k s in
  let back := cond GreaterThan (w_uvr s) (tofloat v) in
  t_trip (w_uv s') = negb (back && now (w_uvr s) k) /\
  w_pos s' = (if back && now (w_uvr s) k && w_cmd s then true else w_pos s) /\
  w_just s' = back && now (w_uvr s) k /\ w_wait s' = back && negb (now (w_uvr s) k).
Proof.
  intros s c v k Hk H1 H2 H3 H4 H5 H6. cbv zeta.
  pose proof (check_cond GreaterThan (w_uvr s) CONFIRM (tofloat v) k H5) as K1.
  destruct (check_for_trip GreaterThan (w_uvr s) CONFIRM (tofloat v) k) as [[uvr r1] j1] eqn:E1.
  unfold w_update_trips. destruct (Z.ltb_spec 0 k); [|lia].
  cbn [w_with_flags w_fclosed w_fopen w_res w_pos w_cmd w_rst w_uv w_uvr w_ov w_ovr w_pc w_nc w_wait w_just].
  rewrite H1, H2, H3, H4, H6. cbn [orb andb negb]. rewrite E1. destruct K1 as (A1 & -> & ->).
  destruct (cond _ _ _), (now _ _); cbn [andb negb];
    cbn [w_with_flags w_with_trips w_with_pos w_fclosed w_fopen w_res w_pos w_cmd w_rst w_uv w_uvr w_ov w_ovr w_pc w_nc w_wait w_just];
    rewrite ?H2; cbn [w_with_flags w_with_trips w_with_pos w_pos w_cmd w_uv w_wait w_just];
    try (destruct (w_cmd s)); rewrite ?H1; repeat split; reflexivity.
Qed.
Theorem C68_switch2_auto_reset_over : forall s c v k,
  (0 < k)%Z -> t_trip (w_ov s) = true -> t_trip (w_uv s) = false -> t_trip (w_pc s) = false ->
  t_trip (w_nc s) = false -> t_trip (w_ovr s) = false -> w_fopen s = false ->
  let s' := w_update_trips tofloat c v k s in
  let back := cond LessThan (w_ovr s) (tofloat v) in
  t_trip (w_ov s') = negb (back && now (w_ovr s) k) /\
  w_pos s' = (if back && now (w_ovr s) k && w_cmd s then true else w_pos s) /\
  w_just s' = back && now (w_ovr s) k /\ w_wait s' = back && negb (now (w_ovr s) k).
Proof.
  intros s c v k Hk H1 H2 H3 H4 H5 H6. cbv zeta.
  pose proof (check_cond LessThan (w_ovr s) CONFIRM (tofloat v) k H5) as K1.
  destruct (check_for_trip LessThan (w_ovr s) CONFIRM (tofloat v) k) as [[ovr r1] j1] eqn:E1.
  unfold w_update_trips. destruct (Z.ltb_spec 0 k); [|lia].
  cbn [w_with_flags w_fclosed w_fopen w_res w_pos w_cmd w_rst w_uv w_uvr w_ov w_ovr w_pc w_nc w_wait w_just].
  rewrite H1, H2, H3, H4, H6. cbn [orb andb negb]. rewrite E1. destruct K1 as (A1 & -> & ->).
  destruct (cond _ _ _), (now _ _); cbn [andb negb];
    cbn [w_with_flags w_with_trips w_with_pos w_fclosed w_fopen w_res w_pos w_cmd w_rst w_uv w_uvr w_ov w_ovr w_pc w_nc w_wait w_just];
    rewrite ?H2; cbn [w_with_flags w_with_trips w_with_pos w_pos w_cmd w_ov w_wait w_just];
    try (destruct (w_cmd s)); rewrite ?H1; repeat split; reflexivity.
Qed.
(** A current trip, a failed-open switch or an initial step changes no trip. *)
Theorem C68_switch2_no_check : forall s c v k,
  (k <= 0)%Z \/ (t_trip (w_pc s) || t_trip (w_nc s) = true) \/
  (any_trip s = false /\ (w_cmd s = false \/ w_fclosed s = true)) ->
  w_update_trips tofloat c v k s = w_with_flags s false false.
Proof.
  intros s c v k H. unfold w_update_trips. destruct (Z.ltb_spec 0 k); [|reflexivity].
  destruct H as [H|H]; [lia|]. unfold w_tripped, any_trip in *.
  cbn [w_with_flags w_fclosed w_fopen w_res w_pos w_cmd w_rst w_uv w_uvr w_ov w_ovr w_pc w_nc w_wait w_just].
  destruct (t_trip (w_uv s)), (t_trip (w_ov s)), (t_trip (w_pc s)), (t_trip (w_nc s)), (w_cmd s), (w_fclosed s), (w_fopen s);
    cbn [orb andb negb] in *; try reflexivity;
    repeat match goal with H : _ \/ _ |- _ => destruct H | H : _ /\ _ |- _ => destruct H end; discriminate.
Qed.

(** The reset limits never cross the trip limits after a state update. *)
Theorem C68_switch2_limits : forall {O : NumOrd T} s,
  let s' := w_update_state s in
  (t_limit (w_uvr s') <~ t_limit (w_uv s')) = false /\ (t_limit (w_ov s') <~ t_limit (w_ovr s')) = false /\
  t_limit (w_uv s') = t_limit (w_uv s) /\ t_limit (w_ov s') = t_limit (w_ov s) /\
  t_limit (w_pc s') = t_limit (w_pc s) /\ t_limit (w_nc s') = t_limit (w_nc s).
Proof.
  intros O s. cbv zeta.
  assert (K : forall x, t_limit (w_uvr (w_update_state x)) = t_limit (w_uvr (apply_constraints x)) /\
    t_limit (w_uv (w_update_state x)) = t_limit (w_uv x) /\
    t_limit (w_ovr (w_update_state x)) = t_limit (w_ovr (apply_constraints x)) /\
    t_limit (w_ov (w_update_state x)) = t_limit (w_ov x) /\
    t_limit (w_pc (w_update_state x)) = t_limit (w_pc x) /\
    t_limit (w_nc (w_update_state x)) = t_limit (w_nc x)).
  { intro x. unfold w_update_state. cbv zeta.
    change (w_uv x) with (w_uv (apply_constraints x)). change (w_ov x) with (w_ov (apply_constraints x)).
    change (w_pc x) with (w_pc (apply_constraints x)). change (w_nc x) with (w_nc (apply_constraints x)).
    generalize (apply_constraints x). intro y.
    pose (y2 := if w_tripped y && negb (w_cmd y) then reset_trips y else y). fold y2.
    assert (A2 : t_limit (w_uvr y2) = t_limit (w_uvr y) /\ t_limit (w_uv y2) = t_limit (w_uv y) /\
      t_limit (w_ovr y2) = t_limit (w_ovr y) /\ t_limit (w_ov y2) = t_limit (w_ov y) /\
      t_limit (w_pc y2) = t_limit (w_pc y) /\ t_limit (w_nc y2) = t_limit (w_nc y))
      by (unfold y2; destruct (w_tripped y && negb (w_cmd y)); repeat split; reflexivity).
    clearbody y2. destruct A2 as (<- & <- & <- & <- & <- & <-).
    destruct (w_rst y2).
    - set (y3 := w_with_cmd (reset_trips y2) (w_cmd y2) false).
      destruct (w_fclosed y3), (w_fopen y3), (w_tripped y3 || w_wait y3); repeat split; reflexivity.
    - destruct (w_fclosed y2), (w_fopen y2), (w_tripped y2 || w_wait y2); repeat split; reflexivity. }
  destruct (K s) as (-> & -> & -> & -> & -> & ->).
  unfold apply_constraints. cbn [w_uvr w_ovr].
  destruct (t_limit (w_uvr s) <~ t_limit (w_uv s)) eqn:E1, (t_limit (w_ov s) <~ t_limit (w_ovr s)) eqn:E2;
    unfold set_limit; cbn [t_limit]; rewrite ?ord_irrefl, ?E1, ?E2; auto 10.
Qed.

Theorem C68_switch2_init : forall resist prio pos cmd rst uv uvr ov ovr pc nc s,
  sw2_init (T := T) resist prio pos cmd rst uv uvr ov ovr pc nc = Some s ->
  (resist <~ flt_epsilon) = false /\ (uvr <~ uv) = false /\ (ov <~ ovr) = false /\
  any_trip s = false /\ w_pos s = pos /\ w_cmd s = cmd /\ w_wait s = false /\
  t_limit (w_uv s) = uv /\ t_limit (w_uvr s) = uvr /\ t_limit (w_ov s) = ov /\ t_limit (w_ovr s) = ovr /\
  t_limit (w_pc s) = pc /\ t_limit (w_nc s) = nc /\ t_prio (w_pc s) = prio /\ t_prio (w_uvr s) = prio.
Proof.
  intros. unfold sw2_init in H.
  destruct (resist <~ flt_epsilon); [discriminate|]. destruct (uvr <~ uv); [discriminate|].
  destruct (ov <~ ovr); [discriminate|]. injection H as <-. repeat split; reflexivity.
Qed.
End SW2.

Example C68_example :
  match sw2_init (T := float) 0.01%float 1 true true false 20%float 21%float 130%float 129%float 10%float (-10)%float with
  | Some s => let s' := w_update_trips (fun x => x) 11%float 100%float 1 s in
              any_trip s = false /\ any_trip s' = true /\ w_pos s' = false
  | None => False
  end.
Proof. vm_compute. auto. Qed.
