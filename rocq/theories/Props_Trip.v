(** C32-C35, C57-C60: trip logic and switches. *)
From Coq Require Import Floats Reals Lra Lia List Arith Bool ZArith.
From Verif Require Import Num Trip TripFacts.
Import ListNotations.

(** ** C32 *)
Section TRIPS.
Context {T : Type} {N : Num T}.
Implicit Types (t : trip (T := T)) (e : tevent (T := T)).

(** The events that may clear a latch. *)
Definition clears t e : bool :=
  match e with TReset => true | TCheck _ _ _ => t_inh t | _ => false end.

Lemma check_trip d t r p k :
  let '(t', r', just) := check_for_trip d t r p k in
  (t_trip t = true -> t_inh t = false -> t' = t /\ r' = r /\ just = false) /\
  (just = negb (t_trip t) && t_trip t') /\
  t_inh t' = t_inh t /\ t_force t' = t_force t /\ t_limit t' = t_limit t /\ t_prio t' = t_prio t /\
  (just = true -> r' = REJECT).
Proof.
  unfold check_for_trip, reset_trip, t_with. destruct t as [i f l q b]. cbn.
  destruct i, b, f, (n0 ==~ l), (q <? 1)%Z; cbn; repeat split; auto; try discriminate;
  unfold is_trip_condition; cbn;
  repeat match goal with
    |- context [if ?c then _ else _] => destruct c; cbn end;
  try (destruct r; cbn); repeat split; auto; discriminate.
Qed.

Theorem C32_trips_latch :
  forall d t es,
  (* no event of the run clears the latch *)
  (forall es1 e es2, es = es1 ++ e :: es2 -> clears (trun d t es1) e = false) ->
  t_trip t = true ->
  t_trip (trun d t es) = true /\ Forall (fun b => b = false) (treports d t es).
Proof.
  intros d t es. revert t. induction es as [|e es IH]; intros t Hc Ht; [cbn; auto|].
  pose proof (Hc [] e es eq_refl) as He. cbn in He.
  assert (Hstep : t_trip (tapply d t e) = true /\ treport d t e = false).
  { destruct e as [r p k| |i f|l]; cbn in *; [|discriminate He|auto|auto].
    pose proof (check_trip d t r p k) as H.
    destruct (check_for_trip d t r p k) as [[t' r'] j]. cbn. destruct H as (H & _).
    destruct (H Ht He) as (-> & _ & ->). auto. }
  destruct Hstep as [H1 H2].
  destruct (IH (tapply d t e)) as [I1 I2]; [|exact H1|].
  - intros es1 e' es2 E. apply (Hc (e :: es1) e' es2). rewrite E. reflexivity.
  - cbn. split; [exact I1 | constructor; assumption].
Qed.

(** Each report is a change from not tripped to tripped, and there is no other
    way to become tripped. *)
Theorem C32_report_is_the_latch :
  forall d t e, treport d t e = negb (t_trip t) && t_trip (tapply d t e).
Proof.
  intros d t e. destruct e as [r p k| |i f|l]; cbn.
  - pose proof (check_trip d t r p k) as H.
    destruct (check_for_trip d t r p k) as [[t' r'] j]. cbn. apply H.
  - now rewrite andb_false_r.
  - now destruct (t_trip t).
  - now destruct (t_trip t).
Qed.

(** Between two clearings at most one report, and one iff it ends tripped. *)
Theorem C32_one_report_per_latch :
  forall d t es,
  (forall es1 e es2, es = es1 ++ e :: es2 -> t_trip (trun d t es1) = true -> clears (trun d t es1) e = false) ->
  t_trip t = false ->
  length (filter (fun b => b) (treports d t es)) = if t_trip (trun d t es) then 1%nat else 0%nat.
Proof.
  intros d t es. revert t. induction es as [|e es IH]; intros t Hc Ht; [cbn; now rewrite Ht|].
  cbn [treports filter trun fold_left].
  rewrite (C32_report_is_the_latch d t e), Ht. cbn [negb andb].
  destruct (t_trip (tapply d t e)) eqn:E.
  - cbn [length].
    assert (Hnc : forall es1 e0 es2, es = es1 ++ e0 :: es2 -> clears (trun d (tapply d t e) es1) e0 = false).
    { assert (K : forall es1 e0 es2, es = es1 ++ e0 :: es2 ->
         t_trip (trun d (tapply d t e) es1) = true /\ clears (trun d (tapply d t e) es1) e0 = false).
      { intros es1. induction es1 as [|x es1 IH1] using rev_ind; intros e0 es2 Es.
        - split; [exact E|]. apply (Hc [e] e0 es2); [cbn; now rewrite Es | exact E].
        - destruct (IH1 x (e0 :: es2)) as [J1 J2]; [rewrite Es, <- app_assoc; reflexivity|].
          assert (Tt : t_trip (trun d (tapply d t e) (es1 ++ [x])) = true).
          { unfold trun. rewrite fold_left_app. cbn.
            apply (proj1 (C32_trips_latch d (trun d (tapply d t e) es1) [x]
               ltac:(intros a0 b0 c0 Eq; destruct a0 as [|? [|]]; cbn in Eq; try discriminate Eq;
                     injection Eq as <- _; exact J2) J1)). }
          split; [exact Tt|].
          apply (Hc (e :: es1 ++ [x]) e0 es2); [cbn; now rewrite Es | exact Tt]. }
      intros es1 e0 es2 Es. apply (K es1 e0 es2 Es). }
    destruct (C32_trips_latch d (tapply d t e) es Hnc E) as [F1 F2].
    change (fold_left (tapply d) es (tapply d t e)) with (trun d (tapply d t e) es). rewrite F1.
    f_equal. clear -F2. induction F2 as [|b l -> _ IH]; [reflexivity | exact IH].
  - change (fold_left (tapply d) es (tapply d t e)) with (trun d (tapply d t e) es).
    apply IH; [|exact E]. intros es1 e0 es2 Es H. apply (Hc (e :: es1) e0 es2); [cbn; now rewrite Es | exact H].
Qed.

(** ** C33 *)
Theorem C33_no_trip_without_cause :
  forall d t r p k,
  let '(t', _, just) := check_for_trip d t r p k in
  just = true ->
  t_trip t = false /\ t_inh t = false /\ (n0 ==~ t_limit t) = false /\ (1 <= t_prio t)%Z /\
  (t_force t = true \/
   (match d with GreaterThan => t_limit t <~ p | LessThan => p <~ t_limit t end) = true /\
   (k mod 2 ^ 32 = t_prio t)%Z).
Proof.
  intros d t r p k. unfold check_for_trip, reset_trip, t_with. destruct t as [i f l q b]. cbn -[Z.eqb to_unsigned Z.ltb].
  destruct i, b; cbn -[Z.eqb to_unsigned Z.ltb]; try discriminate. destruct (n0 ==~ l); cbn -[Z.eqb to_unsigned Z.ltb]; try discriminate.
  destruct (Z.ltb_spec q 1); cbn -[Z.eqb to_unsigned Z.ltb]; try discriminate.
  destruct f; cbn -[Z.eqb to_unsigned Z.ltb]; [intros _; auto 10|].
  unfold is_trip_condition; cbn -[Z.eqb to_unsigned Z.ltb].
  destruct d;
  [destruct (l <~ p) eqn:E | destruct (p <~ l) eqn:E]; cbn -[Z.eqb to_unsigned Z.ltb]; try discriminate;
  (match goal with |- context [Z.eqb ?a q] => destruct (Z.eqb_spec a q) end;
   cbn -[Z.eqb to_unsigned Z.ltb]; [intros _; auto 8 | destruct r; cbn -[Z.eqb to_unsigned Z.ltb]; discriminate]).
Qed.

(** What disables the object, and the events that leave it so. *)
Definition disabled t : Prop := t_inh t = true \/ (n0 ==~ t_limit t) = true \/ (t_prio t < 1)%Z.
Theorem C33_disabled_never_trips :
  forall d t es,
  (forall es1 e es2, es = es1 ++ e :: es2 -> disabled (trun d t es1)) ->
  t_trip t = false ->
  t_trip (trun d t es) = false /\ Forall (fun b => b = false) (treports d t es).
Proof.
  intros d t es. revert t. induction es as [|e es IH]; intros t Hd Ht; [cbn; auto|].
  pose proof (Hd [] e es eq_refl) as He. cbn in He.
  assert (Hr : treport d t e = false /\ t_trip (tapply d t e) = false).
  { destruct e as [r p k| |i f|l]; cbn; auto.
    pose proof (check_trip d t r p k) as H. pose proof (C33_no_trip_without_cause d t r p k) as H'.
    destruct (check_for_trip d t r p k) as [[t' r'] j]. cbn.
    assert (j = false).
    { destruct j; [|reflexivity]. destruct (H' eq_refl) as (_ & X1 & X2 & X3 & _).
      destruct He as [He|[He|He]]; [congruence|congruence|lia]. }
    destruct H as (_ & H & _). rewrite Ht in H. cbn in H. split; congruence. }
  destruct Hr as [R1 R2]. destruct (IH (tapply d t e)) as [I1 I2]; [|exact R2|].
  - intros es1 e' es2 E. apply (Hd (e :: es1) e' es2). rewrite E. reflexivity.
  - split; [exact I1 | constructor; assumption].
Qed.

(** ** C34 *)
Definition rank (r : result) : nat := match r with CONFIRM => 0 | DELAY => 1 | REJECT => 2 end.
Theorem C34_check_never_weakens :
  forall d t r p k,
  let '(_, r', just) := check_for_trip d t r p k in
  (rank r <= rank r')%nat /\ (just = true -> r' = REJECT) /\ (r' = REJECT -> r = REJECT \/ just = true).
Proof.
  intros d t r p k. unfold check_for_trip, reset_trip, t_with. destruct t as [i f l q b]. cbn.
  destruct i, b, f, (n0 ==~ l), (q <? 1)%Z; cbn; auto;
  unfold is_trip_condition; cbn;
  repeat match goal with |- context [if ?c then _ else _] => destruct c; cbn end;
  destruct r; cbn; repeat split; auto; discriminate.
Qed.
End TRIPS.
Print Assumptions C32_trips_latch.
Print Assumptions C32_report_is_the_latch.
Print Assumptions C32_one_report_per_latch.
Print Assumptions C33_no_trip_without_cause.
Print Assumptions C33_disabled_never_trips.
Print Assumptions C34_check_never_weakens.

(** A NaN parameter or a NaN limit trips nothing unless forced. *)
Theorem C33_nan_never_trips :
  forall d (t : trip (T := float)) r p k,
  t_force t = false -> (PrimFloat.eqb p p = false \/ PrimFloat.eqb (t_limit t) (t_limit t) = false) ->
  snd (check_for_trip d t r p k) = false.
Proof.
  intros d t r p k Hf Hn. pose proof (C33_no_trip_without_cause d t r p k) as H.
  destruct (check_for_trip d t r p k) as [[t' r'] j]. cbn. destruct j; [|reflexivity].
  destruct (H eq_refl) as (_ & _ & _ & _ & [H1|[H1 _]]); [congruence|].
  assert (Hlt : forall x y : float, PrimFloat.ltb x y = true -> PrimFloat.eqb x x = true /\ PrimFloat.eqb y y = true).
  { intros x y. rewrite FloatAxioms.ltb_spec, !FloatAxioms.eqb_spec. unfold SFltb, SFeqb.
    destruct (Prim2SF x) as [sx|sx| |sx mx ex]; destruct (Prim2SF y) as [sy|sy| |sy my ey]; cbn; try discriminate;
    intros _; repeat split; try (destruct sx); try (destruct sy); cbn;
    rewrite ?Z.compare_refl, ?Pos.compare_cont_refl; auto. }
  destruct d; cbn in H1; apply Hlt in H1; destruct H1, Hn; congruence.
Qed.
Print Assumptions C33_nan_never_trips.

Example C32_example :
  let t := trip_init 10%float 2 false in
  let es := [TCheck CONFIRM 12%float 1; TCheck CONFIRM 12%float 2; TCheck CONFIRM 1%float 3] in
  treports GreaterThan t es = [false; true; false] /\ t_trip (trun GreaterThan t es) = true /\
  snd (fst (check_for_trip GreaterThan t CONFIRM 12%float 1)) = DELAY.
Proof. vm_compute. auto. Qed.
Example C33_example :
  let t := trip_init 10%float 0 false in
  disabled t /\ t_trip (trun GreaterThan t [TCheck CONFIRM 12%float 0; TCheck CONFIRM nan 2]) = false.
Proof. split; [right; right; reflexivity | vm_compute; reflexivity]. Qed.

(** ** C60: a lasting trip condition trips *)

(** As documented ("trips in this priority"), a condition present from a converged
    step no later than the priority on trips at the priority step ... *)
Theorem C60_trip_at_priority :
  forall {T} {N : Num T} d (t : trip (T := T)) r p,
  t_trip t = false -> t_inh t = false -> (n0 ==~ t_limit t) = false -> (1 <= t_prio t < 2 ^ 31)%Z ->
  (match d with GreaterThan => t_limit t <~ p | LessThan => p <~ t_limit t end) = true ->
  (forall k, (1 <= k < t_prio t)%Z -> t_force t = false -> r <> REJECT ->
     check_for_trip d t r p k = (t, DELAY, false)) /\
  (let '(t', r', just) := check_for_trip d t r p (t_prio t) in t_trip t' = true /\ r' = REJECT /\ just = true).
Proof.
  intros T N d t r p H1 H2 H3 H4 H5. unfold check_for_trip. rewrite H2, H1, H2, H3. cbn [orb negb].
  destruct (Z.ltb_spec (t_prio t) 1); [lia|]. cbn [orb negb]. unfold is_trip_condition.
  destruct (match d with GreaterThan => t_limit t <~ p | LessThan => p <~ t_limit t end) eqn:E; [|discriminate H5].
  rewrite orb_true_r. unfold to_unsigned. split.
  - intros k Hk Hf Hr. rewrite Hf, Z.mod_small by lia. cbn [orb]. destruct (Z.eqb_spec k (t_prio t)); [lia|].
    destruct r; [contradiction Hr; reflexivity | reflexivity | reflexivity].
  - rewrite Z.mod_small, Z.eqb_refl, orb_true_r by lia. cbn. auto.
Qed.
Print Assumptions C60_trip_at_priority.

(** ... but one that appears at a later converged step never trips in that step:
    the link keeps asking for one more minor step instead. *)
Theorem C60_late_condition_trips_refuted :
  exists (t : trip (T := float)) p,
  (t_limit t <~ p) = true /\ t_trip t = false /\
  forall k, (t_prio t < k < 2 ^ 31)%Z -> check_for_trip GreaterThan t CONFIRM p k = (t, DELAY, false).
Proof.
  exists (trip_init 10%float 2 false), 12%float. split; [reflexivity|]. split; [reflexivity|].
  intros k Hk. cbn in Hk. unfold check_for_trip. cbn [trip_init t_inh t_trip t_limit t_prio t_force orb].
  change (n0 ==~ 10%float) with false. cbn [orb negb Z.ltb Z.compare]. unfold is_trip_condition. cbn [t_limit trip_init].
  change (10%float <~ 12%float) with true. cbn iota.
  unfold to_unsigned. rewrite Z.mod_small by lia. destruct (Z.eqb_spec k 2); [lia|]. reflexivity.
Qed.
Print Assumptions C60_late_condition_trips_refuted.

(** ** C35 *)
Section SW.
Context {T : Type} {N : Num T}.
Implicit Types (s : sw (T := T)) (e : sevent (T := T)).

Definition good_pos (x : T) : Prop := (x <~ n0) = false.   (* not a negative forward limit *)
Definition good_neg (x : T) : Prop := (n0 <~ x) = false.   (* not a positive reverse limit *)

(** An event that neither resets the trips, nor fails the switch closed, nor sets
    a trip limit of the wrong sign.  Closing and opening commands, external
    trips, currents, minor steps and the other malfunctions are all allowed; a
    state update counts as a reset when the supply is invalid, the command is
    open, or a reset is pending. *)
Definition no_reset s e : Prop :=
  match e with
  | SState p => p = true /\ s_cmd s = true /\ s_reset s = false
  | SLimits p n => good_pos p /\ good_neg n
  | SMalf fc _ _ _ mp mn _ => fc = false /\
      match mp with Some v => good_pos v | None => True end /\
      match mn with Some v => good_neg v | None => True end
  | _ => True
  end.
Fixpoint no_resets s (es : list sevent) : Prop :=
  match es with [] => True | e :: es => no_reset s e /\ no_resets (sapply s e) es end.

Definition limits_ok s : Prop :=
  good_pos (s_dpos s) /\ good_pos (s_apos s) /\ good_neg (s_dneg s) /\ good_neg (s_aneg s) /\
  match s_mpos s with Some v => good_pos v | None => True end /\
  match s_mneg s with Some v => good_neg v | None => True end.

Definition latched s : Prop :=
  s_fclosed s = false /\ s_closed s = false /\ s_pos s || s_neg s = true /\ limits_ok s.

Lemma latched_step s e : latched s -> no_reset s e -> latched (sapply s e).
Proof.
  intros (H1 & H2 & H3 & H4) He. destruct e as [p|a b v k m|c| |b|p n|fc fo fr pct mp mn ig|b]; cbn [sapply].
  - destruct He as (-> & Hc & Hr). unfold latched, update_state, s_tripped, limits_ok in *. cbn.
    rewrite H3, Hc, Hr, H1, H2. cbn. split; [reflexivity|].
    split; [destruct (s_fopen s); reflexivity|]. split; [exact H3|].
    destruct H4 as (A & B & C & D & E & F). destruct (s_mpos s), (s_mneg s); auto 10.
  - unfold good_pos, good_neg in *. rewrite update_flow_form. cbv zeta. unfold latched, limits_ok in *. sw_cbn.
    unfold over, under, seen. rewrite H1, H2. sw_cbn.
    destruct H4 as (A & B & C & D & E & F). rewrite B, D, !andb_false_r. auto 12.
  - exact (conj H1 (conj H2 (conj H3 H4))).
  - exact (conj H1 (conj H2 (conj H3 H4))).
  - exact (conj H1 (conj H2 (conj H3 H4))).
  - destruct He as [He1 He2]. unfold latched, limits_ok in *. cbn. tauto.
  - destruct He as (-> & He1 & He2). unfold latched, limits_ok in *. cbn. tauto.
  - exact (conj H1 (conj H2 (conj H3 H4))).
Qed.

(** A switch tripped open by its own current protection stays open and tripped
    through every history without resets. *)
Theorem C35_tripped_switch_stays_open :
  forall s es, latched s -> no_resets s es ->
  let s' := fold_left sapply es s in
  s_closed s' = false /\ s_tripped s' = true /\ conductance s' = n0.
Proof.
  intros s es. revert s. induction es as [|e es IH]; intros s Hl Hn; cbn [fold_left].
  - destruct Hl as (H1 & H2 & H3 & H4). unfold conductance, s_tripped. rewrite H2, H3. cbn. auto.
  - destruct Hn as [He Hn]. apply IH; [apply latched_step; assumption | exact Hn].
Qed.

(** Tripping: over-current on a closed, protected switch at or after its priority
    step opens it. *)
Theorem C35_overcurrent_opens :
  forall s a b v k m,
  s_fclosed s = false -> s_prot s = true -> s_closed s = true -> (s_prio s <= k)%Z ->
  (s_apos s <~ b) = true \/ (b <~ s_aneg s) = true ->
  let s' := update_flow a b v k m s in
  s_closed s' = false /\ s_pos s' || s_neg s' = true /\ s_cur s' = n0 /\ s_wait s' = false /\
  (s_pos s' = true -> s_pos s = true \/ (s_apos s <~ b) = true) /\
  (s_neg s' = true -> s_neg s = true \/ (b <~ s_aneg s) = true) /\
  (m = false -> s_just s' = negb (s_tripped s)).
Proof.
  intros s a b v k m H1 H2 H3 H4 H5. cbv zeta. rewrite update_flow_form. cbv zeta. unfold s_tripped. sw_cbn.
  unfold over, under, seen, at_prio. rewrite H1, H2, H3. sw_cbn.
  destruct (Z.leb_spec (s_prio s) k); [|lia].
  destruct (s_apos s <~ b) eqn:E1, (b <~ s_aneg s) eqn:E2; try (destruct H5; discriminate);
    sw_cbn; rewrite ?orb_true_r; sw_cbn; repeat split; auto; intros ->; reflexivity.
Qed.

(** Before its priority step an untripped switch does not open, and waits. *)
Theorem C35_waits_for_priority :
  forall s a b v k m,
  s_fclosed s = false -> s_prot s = true -> s_closed s = true -> (k < s_prio s)%Z -> s_ext s = false ->
  (s_apos s <~ b) = true \/ (b <~ s_aneg s) = true ->
  let s' := update_flow a b v k m s in s_closed s' = true /\ s_wait s' = true /\ s_cur s' = a.
Proof.
  intros s a b v k m H1 H2 H3 H4 H6 H5. cbv zeta. rewrite update_flow_form. cbv zeta. sw_cbn.
  unfold over, under, seen, at_prio. rewrite H1, H2, H3, H6. sw_cbn.
  destruct (Z.leb_spec (s_prio s) k); [lia|]. rewrite andb_false_r. sw_cbn.
  destruct (s_apos s <~ b), (b <~ s_aneg s); try (destruct H5; discriminate); auto.
Qed.

(** External trips open the switch at the next flow update. *)
Theorem C35_external_trip_opens :
  forall s a b v k m,
  s_fclosed s = false -> s_ext s = true -> s_closed (update_flow a b v k m s) = false.
Proof.
  intros s a b v k m H1 H2. rewrite update_flow_form. cbv zeta. sw_cbn. rewrite H1, H2. sw_cbn.
  rewrite orb_true_r. apply andb_false_r.
Qed.
End SW.
Print Assumptions C35_tripped_switch_stays_open.
Print Assumptions C35_overcurrent_opens.
Print Assumptions C35_waits_for_priority.
Print Assumptions C35_external_trip_opens.

(** The states reached from initialisation by a run. *)
Definition sw_example : sw (T := float) :=
  match sw_init 0.5%float true false 0 1 true 3.5%float (-0.1)%float with
  | Some s => s
  | None => {| s_fclosed := false; s_fopen := false; s_fres := false; s_fpct := 0%float; s_mpos := None;
      s_mneg := None; s_ign := false; s_cur := 0%float; s_sens := 0%float; s_volt := 0%float; s_power := 0%float;
      s_cmd := false; s_closed := false; s_pos := false; s_neg := false; s_ext := false; s_wait := false;
      s_just := false; s_prio := 0; s_reset := false; s_dres := 0%float; s_ares := 0%float; s_prot := false;
      s_dpos := 0%float; s_apos := 0%float; s_dneg := 0%float; s_aneg := 0%float |}
  end.
Definition srun (es : list (sevent (T := float))) : sw := fold_left sapply es sw_example.

Example C35_example :
  let s := srun [SState true; SFlow 5%float 5%float 120%float 1 false] in
  latched s /\ s_just s = true /\
  no_resets s [SCommand true; SState true; SFlow 1%float 1%float 120%float 1 false; SExternal false; SState true].
Proof.
  cbn zeta. split; [|split; [vm_compute; reflexivity|]].
  - unfold latched, limits_ok, good_pos, good_neg. vm_compute. repeat split.
  - vm_compute. repeat split.
Qed.

(** False in general: releasing the fail-closed malfunction leaves a tripped
    switch closed, command and supply unchanged, with no malfunction active ... *)
Theorem C35_tripped_switch_open_refuted :
  exists es : list (sevent (T := float)),
  let s := srun es in
  s_tripped s = true /\ s_fclosed s = false /\ s_closed s = true /\ s_just s = false.
Proof.
  exists [SState true; SFlow 5%float 5%float 120%float 1 false;
          SMalf true false false 0%float None None false; SState true;
          SMalf false false false 0%float None None false; SState true;
          SFlow 2%float 2%float 120%float 1 false; SState true; SFlow 2%float 2%float 120%float 1 false].
  vm_compute. auto.
Qed.
Print Assumptions C35_tripped_switch_open_refuted.

(** ... and a set-point malfunction with a negative forward limit unlatches the
    trip of a two-port switch at an early minor step, so that it closes again. *)
Theorem C35_setpoint_unlatches_refuted :
  exists s0, sw_init 0.5%float true true 1 2 true 3.5%float (-0.1)%float = Some s0 /\
  exists es1 es2,
  let s1 := fold_left sapply es1 s0 in
  s_tripped s1 = true /\ s_closed s1 = false /\
  (forall e, In e es2 -> e <> SReset /\ (forall c, e <> SCommand c) /\ e <> SState false) /\
  let s2 := fold_left sapply es2 s1 in
  s_tripped s2 = false /\ s_closed s2 = true.
Proof.
  eexists. split; [reflexivity|].
  exists [SState true; SFlow 5%float 5%float 120%float 2 false],
         [SMalf false false false 0%float (Some (-1)%float) None false; SState true;
          SFlow 0%float 0%float 120%float 1 false;
          SMalf false false false 0%float None None false; SState true;
          SFlow 0%float 0%float 120%float 1 false; SState true].
  cbn zeta. split; [vm_compute; reflexivity|]. split; [vm_compute; reflexivity|]. split.
  - cbn. intros e H. repeat (destruct H as [<-|H]; [repeat split; discriminate|]). destruct H.
  - split; vm_compute; reflexivity.
Qed.
Print Assumptions C35_setpoint_unlatches_refuted.

(** ** C58: resistance malfunction *)
Theorem C58_resistance_malfunction_stable_refuted :
  exists pct : float,
  let s0 := srun [SMalf false false true pct None None false] in
  let s1 := sapply s0 (SState true) in
  let s2 := sapply s1 (SState true) in
  s_ares s1 = 1%float /\ s_ares s2 = 0.01%float.
Proof. exists 200%float. vm_compute. auto. Qed.
Print Assumptions C58_resistance_malfunction_stable_refuted.

(** Up to 100 percent it is stable (exact reals). *)
Theorem C58_resistance_malfunction_stable_to_100 :
  forall (s : sw (T := R)) n p,
  (0 < s_dres s)%R -> s_fres s = true -> (0 <= s_fpct s <= 100)%R ->
  let frac := if Rle_dec (s_fpct s) 1 then s_fpct s else (s_fpct s / 100)%R in
  s_ares (Nat.iter (S n) (update_state p) s) = (s_dres s * frac)%R.
Proof.
  intros s n p Hd Hf Hp. cbn zeta.
  set (frac := if Rle_dec (s_fpct s) 1 then s_fpct s else (s_fpct s / 100)%R).
  assert (Hfr : (frac <= 1)%R) by (unfold frac; destruct (Rle_dec (s_fpct s) 1); lra).
  assert (Hone : forall u : sw (T := R), (0 < s_dres u)%R -> s_fres u = true ->
     (if Rltb 1 (s_fpct u) then s_fpct u / 100 else s_fpct u)%R = frac ->
     let w := update_state p u in s_dres w = s_dres u /\ s_fres w = true /\ s_fpct w = frac /\
       s_ares w = (s_dres u * frac)%R).
  { intros u U1 U2 U3. unfold update_state, conductance_limit. cbn -[Rdec]. rnum. rewrite U2. cbn [andb].
    destruct (Rleb_spec (s_dres u) 0); [lra|].
    replace (Rdec 100 0) with 100%R by reflexivity. rewrite U3. auto. }
  assert (K : forall m, let w := Nat.iter (S m) (update_state p) s in
     s_dres w = s_dres s /\ s_fres w = true /\ s_fpct w = frac /\ s_ares w = (s_dres s * frac)%R).
  { induction m as [|m IH]; cbn zeta.
    - cbn [Nat.iter]. apply Hone; auto. unfold frac. destruct (Rltb_spec 1 (s_fpct s)); destruct (Rle_dec (s_fpct s) 1); lra.
    - cbn zeta in IH. destruct IH as (I1 & I2 & I3 & _).
      change (Nat.iter (S (S m)) (update_state p) s) with (update_state p (Nat.iter (S m) (update_state p) s)).
      destruct (Hone (Nat.iter (S m) (update_state p) s)) as (K1 & K2 & K3 & K4); [rewrite I1; exact Hd | exact I2 | |].
      + rewrite I3. destruct (Rltb_spec 1 frac); [lra | reflexivity].
      + rewrite I1 in K1, K4. auto. }
  apply (K n).
Qed.
Print Assumptions C58_resistance_malfunction_stable_to_100.

(** ** C59: ignore-current-trip malfunction *)
Theorem C59_protection_restored_refuted :
  exists es : list (sevent (T := float)),
  let s := srun es in
  s_prot sw_example = true /\ s_ign s = false /\ s_closed s = true /\
  forall b v k, s_tripped (update_flow b b v k false s) = false.
Proof.
  exists [SMalf false false false 0%float None None true; SState true;
          SMalf false false false 0%float None None false; SState true; SState true].
  cbn zeta. split; [vm_compute; reflexivity|]. split; [vm_compute; reflexivity|]. split; [vm_compute; reflexivity|].
  intros b v k.
  set (s := srun _). assert (E : s_prot s = false /\ s_ext s = false /\ s_pos s = false /\ s_neg s = false /\ s_fclosed s = false)
    by (vm_compute; auto).
  destruct E as (E1 & E2 & E3 & E4 & E5). clearbody s. unfold update_flow.
  cbn [flow_with s_prot s_fclosed]. rewrite E1, E5. cbn [negb flow_with s_ext]. rewrite E2. cbn [andb].
  unfold s_tripped. cbn. rewrite E2, E3, E4. reflexivity.
Qed.
Print Assumptions C59_protection_restored_refuted.

(** ** C57: GunnsElectSwitchUtil2 *)
Section SW2.
Context {T : Type} {N : Num T}.
Variable tofloat : T -> T.
Implicit Types (s : sw2 (T := T)).

(** No fail-closed malfunction, and not both voltage trips latched when the trips
    are updated. *)
Definition w_ok s (e : wevent (T := T)) : Prop :=
  match e with
  | WMalf fc _ => fc = false
  | WTrips _ _ _ => t_trip (w_uv s) = false \/ t_trip (w_ov s) = false
  | _ => True
  end.
Fixpoint w_oks s (es : list wevent) : Prop :=
  match es with [] => True | e :: es => w_ok s e /\ w_oks (wapply tofloat s e) es end.

Definition w_inv s : Prop := w_fclosed s = false /\ (w_tripped s = true -> w_pos s = false).

Lemma check4 (d : side) (t : trip (T := T)) r p k t' r' j :
  check_for_trip d t r p k = (t', r', j) -> t_trip t = false ->
  (r' = REJECT -> r = REJECT \/ t_trip t' = true) /\ (t_trip t' = true -> r' = REJECT) /\ (r = REJECT -> r' = REJECT).
Proof.
  intros E Ht. pose proof (C34_check_never_weakens d t r p k) as A. pose proof (check_trip d t r p k) as B.
  rewrite E in A, B. destruct A as (A1 & A2 & A3). destruct B as (_ & B & _). rewrite Ht in B. cbn in B. subst j.
  split; [exact A3|]. split; [exact A2|]. intros ->. cbn in A1. destruct r'; cbn in A1; auto; lia.
Qed.

Lemma w_step s e : w_inv s -> w_ok s e -> w_inv (wapply tofloat s e).
Proof.
  intros [H1 H2] He. destruct e as [|c v k|c| |fc fo|q i f|q l]; cbn [wapply].
  - unfold w_update_state.
    set (s0 := apply_constraints s).
    assert (A : w_fclosed s0 = false /\ (w_tripped s0 = true -> w_pos s0 = false)).
    { split; [exact H1|]. unfold w_tripped, s0 in *. cbn. exact H2. }
    clearbody s0. clear H1 H2 s He.
    set (s1 := if w_tripped s0 && negb (w_cmd s0) then reset_trips s0 else s0).
    assert (B : w_fclosed s1 = false /\ (w_tripped s1 = true -> w_pos s1 = false))
      by (unfold s1; destruct (w_tripped s0 && negb (w_cmd s0)); [split; [apply A | cbn; discriminate] | exact A]).
    clearbody s1. clear A s0.
    set (s2 := if w_rst s1 then w_with_cmd (reset_trips s1) (w_cmd s1) false else s1).
    assert (C : w_fclosed s2 = false /\ (w_tripped s2 = true -> w_pos s2 = false))
      by (unfold s2; destruct (w_rst s1); [split; [apply B | cbn; discriminate] | exact B]).
    clearbody s2. destruct C as [C1 C2]. rewrite C1.
    destruct (w_fopen s2).
    + split; [exact C1|]. intros _. reflexivity.
    + destruct (w_tripped s2) eqn:E; cbn [orb negb].
      * split; [exact C1|]. intros _. apply C2. reflexivity.
      * destruct (w_wait s2); cbn [negb].
        -- split; [exact C1|]. rewrite E. discriminate.
        -- split; [exact C1|]. change (w_tripped (w_with_pos s2 (w_cmd s2))) with (w_tripped s2). rewrite E. discriminate.
  - cbn in He. unfold w_update_trips. destruct (0 <? k)%Z; [|split; [exact H1 | exact H2]].
    cbn [w_with_flags w_uv w_ov w_pc w_nc w_fopen w_cmd w_fclosed w_uvr w_ovr].
    destruct ((t_trip (w_uv s) || t_trip (w_ov s)) && negb (w_fopen s || t_trip (w_pc s) || t_trip (w_nc s))) eqn:E1.
    + apply andb_prop in E1. destruct E1 as [E1 E2]. rewrite negb_true_iff in E2.
      apply orb_false_elim in E2. destruct E2 as [E2 E4]. apply orb_false_elim in E2. destruct E2 as [E2 E3].
      destruct (t_trip (w_uv s)) eqn:U; destruct (t_trip (w_ov s)) eqn:O; cbn in E1; try discriminate E1.
      * destruct He; discriminate.
      * destruct (check_for_trip GreaterThan (w_uvr s) CONFIRM (tofloat v) k) as [[uvr r] j] eqn:Ec.
        pose proof (C34_check_never_weakens GreaterThan (w_uvr s) CONFIRM (tofloat v) k) as W. rewrite Ec in W.
        destruct W as (W1 & W2 & W3).
        destruct j.
        -- rewrite (W2 eq_refl). split; [cbn; destruct (w_cmd s); exact H1|].
           unfold w_tripped. cbn. destruct (w_cmd s); cbn; rewrite ?O, ?E3, ?E4; discriminate.
        -- destruct r; [destruct (W3 eq_refl); discriminate| |]; (split; [exact H1|]);
           unfold w_tripped in *; cbn in *; rewrite ?U, ?O, ?E3, ?E4 in *; cbn in *; exact H2.
      * destruct (check_for_trip LessThan (w_ovr s) CONFIRM (tofloat v) k) as [[ovr r] j] eqn:Ec.
        pose proof (C34_check_never_weakens LessThan (w_ovr s) CONFIRM (tofloat v) k) as W. rewrite Ec in W.
        destruct W as (W1 & W2 & W3).
        destruct j.
        -- rewrite (W2 eq_refl). split; [cbn; destruct (w_cmd s); exact H1|].
           unfold w_tripped. cbn. destruct (w_cmd s); cbn; rewrite ?U, ?E3, ?E4; discriminate.
        -- destruct r; [destruct (W3 eq_refl); discriminate| |]; (split; [exact H1|]);
           unfold w_tripped in *; cbn in *; rewrite ?U, ?O, ?E3, ?E4 in *; cbn in *; exact H2.
    + change (w_tripped (w_with_flags s false false)) with (w_tripped s).
      destruct (w_cmd s && negb (w_tripped s) && negb (w_fclosed s)) eqn:E2; [|split; [exact H1 | exact H2]].
      apply andb_prop in E2. destruct E2 as [E2 _]. apply andb_prop in E2. destruct E2 as [_ E2].
      rewrite negb_true_iff in E2. unfold w_tripped in E2.
      apply orb_false_elim in E2. destruct E2 as [E2 T4]. apply orb_false_elim in E2. destruct E2 as [E2 T3].
      apply orb_false_elim in E2. destruct E2 as [T1 T2].
      destruct (check_for_trip LessThan (w_uv s) CONFIRM (tofloat v) k) as [[uv r1] j1] eqn:C1.
      destruct (check_for_trip GreaterThan (w_ov s) r1 (tofloat v) k) as [[ov r2] j2] eqn:C2.
      destruct (check_for_trip GreaterThan (w_pc s) r2 (tofloat c) k) as [[pc r3] j3] eqn:C3.
      destruct (check_for_trip LessThan (w_nc s) r3 (tofloat c) k) as [[nc r4] j4] eqn:C4.
      destruct (check4 _ _ _ _ _ _ _ _ C1 T1) as (A1 & A2 & A3).
      destruct (check4 _ _ _ _ _ _ _ _ C2 T2) as (B1 & B2 & B3).
      destruct (check4 _ _ _ _ _ _ _ _ C3 T3) as (D1 & D2 & D3).
      destruct (check4 _ _ _ _ _ _ _ _ C4 T4) as (F1 & F2 & F3).
      assert (K : t_trip uv || t_trip ov || t_trip pc || t_trip nc = true -> r4 = REJECT).
      { rewrite !orb_true_iff. intros [[[K|K]|K]|K]; auto. }
      destruct r4; (split; [exact H1|]); [reflexivity| |];
      unfold w_tripped; cbn; intros X; specialize (K X); discriminate K.
  - split; [exact H1 | exact H2].
  - split; [exact H1 | exact H2].
  - split; [exact He | exact H2].
  - split; [destruct q; exact H1|]. destruct q; exact H2.
  - split; [destruct q; exact H1|]. destruct q; exact H2.
Qed.

Theorem C57_tripped_switch2_open :
  forall resist prio pos cmd rst uv uvr ov ovr pc nc s es,
  sw2_init resist prio pos cmd rst uv uvr ov ovr pc nc = Some s ->
  w_oks s es ->
  let s' := fold_left (wapply tofloat) es s in
  w_tripped s' = true -> w_pos s' = false.
Proof.
  intros resist prio pos cmd rst uv uvr ov ovr pc nc s es Hi Hn.
  assert (I : w_inv s).
  { unfold sw2_init in Hi. destruct (resist <~ flt_epsilon); [discriminate Hi|].
    destruct (uvr <~ uv); [discriminate Hi|]. destruct (ov <~ ovr); [discriminate Hi|].
    injection Hi as <-. split; [reflexivity | cbn; discriminate]. }
  clear Hi. revert s Hn I. induction es as [|e es IH]; intros s Hn I; cbn [fold_left].
  - apply I.
  - destruct Hn as [He Hn]. apply IH; [exact Hn | apply w_step; assumption].
Qed.
End SW2.
Print Assumptions C57_tripped_switch2_open.

(** With a forced under-voltage trip next to a real over-voltage trip, the reset of
    the first closes the switch while the second is still latched. *)
Definition sw2_example : sw2 (T := float) :=
  match sw2_init 0.1%float 1 true true false 100%float 110%float 130%float 125%float 0%float 0%float with
  | Some s => s
  | None => {| w_fclosed := false; w_fopen := false; w_res := 0%float; w_pos := false; w_cmd := false; w_rst := false;
     w_uv := trip_init 0%float 0 false; w_uvr := trip_init 0%float 0 false; w_ov := trip_init 0%float 0 false;
     w_ovr := trip_init 0%float 0 false; w_pc := trip_init 0%float 0 false; w_nc := trip_init 0%float 0 false;
     w_wait := false; w_just := false |}
  end.
Definition w2run (es : list wevent) : sw2 := fold_left (wapply (fun x => x)) es sw2_example.

Theorem C57_tripped_switch2_open_refuted :
  exists es,
  (forall fc fo, ~ In (WMalf fc fo) es) /\
  let s := w2run es in
  w_pos sw2_example = true /\ w_tripped s = true /\ w_pos s = true.
Proof.
  exists [WTripMalf KUv false true; WState; WTrips 1%float 140%float 1;
          WTripMalf KUv false false; WState; WTrips 0%float 140%float 1; WState].
  split; [cbn; intros fc fo H; repeat (destruct H as [H|H]; [discriminate H|]); exact H|].
  vm_compute. auto.
Qed.
Print Assumptions C57_tripped_switch2_open_refuted.

(** Releasing the fail-closed malfunction does the same as for the other switch. *)
Theorem C57_malfunction_release_refuted :
  exists es, let s := w2run es in w_tripped s = true /\ w_fclosed s = false /\ w_pos s = true.
Proof.
  exists [WTrips 1%float 140%float 1; WMalf true false; WState; WMalf false false; WState;
          WTrips 1%float 140%float 1; WState].
  vm_compute. auto.
Qed.
Print Assumptions C57_malfunction_release_refuted.

Example C57_example :
  w_oks (fun x => x) sw2_example [WTrips 1%float 140%float 1; WState; WTrips 0%float 120%float 1] /\
  w_tripped (w2run [WTrips 1%float 140%float 1]) = true /\
  w_pos (w2run [WTrips 1%float 140%float 1; WState]) = false /\
  w_pos (w2run [WTrips 1%float 140%float 1; WState; WTrips 0%float 120%float 1]) = true.
Proof.
  split; [|vm_compute; auto]. cbn [w_oks w_ok].
  split; [right; vm_compute; reflexivity|]. split; [exact I|].
  split; [left; vm_compute; reflexivity | exact I].
Qed.
