(** C203, C204: thermostats. *)
From Coq Require Import Floats.
From Coq Require Import Reals Lra Lia List Arith Bool ZArith.
From Verif Require Import Num Ord MathUtil Props_Math MsgQueue F32 Sensor Props_Sensor Thermostat.
Import ListNotations.
Local Open Scope R_scope.

Section GENERIC.
Context {F D : Type} {NF : Num F} {ND : Num D} {C : Casts F D}.

(** The band that the temperature set point asks for. *)
Definition band_low (c : thcfg F D) (s : thstate F D) : D := tc_low c +~ (ts_setpt s -~ ndec 5 (-1) *~ (tc_low c +~ tc_high c)).
Definition band_high (c : thcfg F D) (s : thstate F D) : D := tc_high c +~ (ts_setpt s -~ ndec 5 (-1) *~ (tc_low c +~ tc_high c)).
(** The temperatures the sensors read. *)
Definition sensed (s : thstate F D) : list D := map (fun x => widen (ss_sensed x)) (ts_sensors s).
(** A sensor asks for heat: it is not above the band, and is below it or there was heat before. *)
Definition asks (low high : D) (was : bool) (t : D) : Prop := (high <~ t) = false /\ ((t <~ low) = true \/ was = true).

Lemma read_or : forall l low high cmd ts, l <> AND -> read_sensors l low high cmd ts = true <-> exists t, In t ts /\ asks low high cmd t.
Proof.
  intros l low high cmd ts L. induction ts as [|t r IH].
  - destruct l; try contradiction; cbn; split; [discriminate|intros (t & [] & _)|discriminate|intros (t & [] & _)].
  - assert (K : evaluate low high cmd t = true <-> asks low high cmd t).
    { unfold evaluate, asks. destruct (high <~ t), (t <~ low), cmd; split; intros H; auto; try discriminate; try (destruct H as [H [H'|H']]; discriminate). }
    cbn [read_sensors]. destruct l; try contradiction; cbn [primary]; (destruct (evaluate low high cmd t) eqn:E; cbn [Bool.eqb];
      [split; [intros _; exists t; split; [now left|now apply K]|reflexivity]
      |rewrite IH; split; [intros (x & I & A); exists x; split; [now right|exact A]|intros (x & [<-|I] & A); [apply K in A; discriminate|exists x; auto]]]).
Qed.
Lemma read_and : forall low high cmd ts, read_sensors AND low high cmd ts = true <-> forall t, In t ts -> asks low high cmd t.
Proof.
  intros low high cmd ts. induction ts as [|t r IH].
  - cbn. split; [intros _ t []|reflexivity].
  - assert (K : evaluate low high cmd t = true <-> asks low high cmd t).
    { unfold evaluate, asks. destruct (high <~ t), (t <~ low), cmd; split; intros H; auto; try discriminate; try (destruct H as [H [H'|H']]; discriminate). }
    cbn [read_sensors primary]. destruct (evaluate low high cmd t) eqn:E; cbn [Bool.eqb].
    + rewrite IH. split; [intros H x [<-|I]; [now apply K|now apply H]|intros H x I; apply H; now right].
    + split; [discriminate|]. intros H. apply K, H. now left.
Qed.
Lemma update_inv : forall (c : thcfg F D) m us s s', th_update c m us s = Ret s' ->
  ts_setpt s' = ts_setpt s /\ ts_bias s' = ts_setpt s -~ th_mid c /\
  ts_low s' = (if tm_lowf m then tm_low m else band_low c s) /\ ts_high s' = (if tm_highf m then tm_high m else band_high c s) /\
  ts_nominal s' = read_sensors (tc_logic c) (band_low c s) (band_high c s) (ts_nominal s) (sensed s') /\
  ts_cmd s' = read_sensors (tc_logic c) (ts_low s') (ts_high s') (if tm_lowf m || tm_highf m then ts_cmd s else ts_nominal s) (sensed s') /\
  ts_actual s' = consider_malfs (tm_off m) (tm_on m) (tm_kill m) (ts_cmd s') /\
  update_sensors (tc_sensor c) us 0 (ts_sensors s) = Ret (ts_sensors s').
Proof.
  intros c m us s s' H. unfold th_update in H. apply bindO_ret in H. destruct H as (ss & E & H). injection H as <-.
  cbn [ts_setpt ts_bias ts_low ts_high ts_nominal ts_cmd ts_actual ts_sensors]. unfold sensed, temps_of, band_low, band_high, th_mid.
  cbn [ts_sensors]. destruct (tm_lowf m), (tm_highf m); cbn [orb]; rewrite E; repeat split; reflexivity.
Qed.

(** ** C203 *)
(** With the OR logic or a single sensor the command is on when one of the sensors asks for heat. *)
Theorem C203_or : forall (c : thcfg F D) m us s s', tc_logic c <> AND -> th_update c m us s = Ret s' ->
  (ts_nominal s' = true <-> exists t, In t (sensed s') /\ asks (band_low c s) (band_high c s) (ts_nominal s) t).
Proof. intros c m us s s' L H. apply update_inv in H. destruct H as (_ & _ & _ & _ & -> & _). now apply read_or. Qed.
Print Assumptions C203_or.
(** With the AND logic it is on when all of them do. *)
Theorem C203_and : forall (c : thcfg F D) m us s s', tc_logic c = AND -> th_update c m us s = Ret s' ->
  (ts_nominal s' = true <-> forall t, In t (sensed s') -> asks (band_low c s) (band_high c s) (ts_nominal s) t).
Proof. intros c m us s s' L H. apply update_inv in H. destruct H as (_ & _ & _ & _ & -> & _). rewrite L. apply read_and. Qed.
Print Assumptions C203_and.

(** A history: set points, biases and updates with any malfunctions; the states after each. *)
Inductive thop := TSet (x : D) | TBias (b : D) | TUpdate (m : thmalf D) (us : nat -> SensorUse F D).
Definition th_op (c : thcfg F D) (o : thop) (s : thstate F D) : outcome (thstate F D) :=
  match o with TSet x => Ret (set_setpt s x) | TBias b => Ret (set_bias c s b) | TUpdate m us => th_update c m us s end.
Fixpoint th_run (c : thcfg F D) (s : thstate F D) (os : list thop) : outcome (thstate F D) :=
  match os with [] => Ret s | o :: r => let! s := th_op c o s in th_run c s r end.
(** Every update of the history finds what [P] says of the band and the temperatures. *)
Fixpoint finds (P : D -> D -> list D -> Prop) (c : thcfg F D) (s : thstate F D) (os : list thop) : Prop :=
  match os with
  | [] => True
  | o :: r => match th_op c o s with
              | Ret s' => (match o with TUpdate _ _ => P (band_low c s) (band_high c s) (sensed s') | _ => True end) /\ finds P c s' r
              | _ => True
              end
  end.
Lemma sensors_len : forall (c : SensorConfig F D) us ss i ss', update_sensors c us i ss = Ret ss' -> length ss' = length ss.
Proof.
  intros c us ss. induction ss as [|s r IH]; intros i ss' H; cbn in H; [now injection H as <-|].
  apply bindO_ret in H. destruct H as (s1 & _ & H). apply bindO_ret in H. destruct H as (r1 & E & H). injection H as <-. cbn. f_equal. eauto.
Qed.
Lemma op_len : forall (c : thcfg F D) o s s', th_op c o s = Ret s' -> length (ts_sensors s') = length (ts_sensors s).
Proof.
  intros c [x|b|m us] s s' H; cbn in H; try (injection H as <-; reflexivity). apply update_inv in H.
  destruct H as (_ & _ & _ & _ & _ & _ & _ & H). eapply sensors_len; eauto.
Qed.
(** Once on, the command stays on for as long as no sensor is above the band, whatever the set
    points, biases and malfunctions; once off, it stays off for as long as no sensor is below it. *)
Theorem C203_stays_on : forall (c : thcfg F D) os s s', ts_sensors s <> [] -> ts_nominal s = true ->
  finds (fun _ high ts => forall t, In t ts -> (high <~ t) = false) c s os ->
  th_run c s os = Ret s' -> ts_nominal s' = true.
Proof.
  intros c os. induction os as [|o r IH]; intros s s' N S0 Fi R; cbn in R; [now injection R as <-|].
  apply bindO_ret in R. destruct R as (s1 & E & R). cbn in Fi. rewrite E in Fi. destruct Fi as [P Fi].
  apply (IH s1 s'); auto.
  - intro Z. apply op_len in E. rewrite Z in E. destruct (ts_sensors s); [contradiction|discriminate].
  - destruct o as [x|b|m us]; cbn in E; try (injection E as <-; exact S0). pose proof (op_len c (TUpdate m us) s s1 E) as L.
    apply update_inv in E. destruct E as (_ & _ & _ & _ & -> & _).
    destruct (tc_logic c) eqn:Lg; [apply read_or; [discriminate|]|apply read_and|apply read_or; [discriminate|]].
    all: unfold asks; try (intros t I; split; auto).
    all: destruct (ts_sensors s1) as [|x xs] eqn:X; [destruct (ts_sensors s); [contradiction|discriminate]|].
    all: unfold sensed in *; rewrite X in *; exists (widen (ss_sensed x)); (split; [now left|]); (split; [apply P; now left|auto]).
Qed.
Print Assumptions C203_stays_on.
Theorem C203_stays_off : forall (c : thcfg F D) os s s', ts_sensors s <> [] -> ts_nominal s = false ->
  finds (fun low _ ts => forall t, In t ts -> (t <~ low) = false) c s os ->
  th_run c s os = Ret s' -> ts_nominal s' = false.
Proof.
  intros c os. induction os as [|o r IH]; intros s s' N S0 Fi R; cbn in R; [now injection R as <-|].
  apply bindO_ret in R. destruct R as (s1 & E & R). cbn in Fi. rewrite E in Fi. destruct Fi as [P Fi].
  apply (IH s1 s'); auto.
  - intro Z. apply op_len in E. rewrite Z in E. destruct (ts_sensors s); [contradiction|discriminate].
  - destruct o as [x|b|m us]; cbn in E; try (injection E as <-; exact S0). pose proof (op_len c (TUpdate m us) s s1 E) as L.
    apply update_inv in E. destruct E as (_ & _ & _ & _ & -> & _). apply not_true_is_false. intro T.
    assert (B : exists t, In t (sensed s1) /\ asks (band_low c s) (band_high c s) (ts_nominal s) t).
    { destruct (tc_logic c) eqn:Lg; [apply read_or in T; [exact T|discriminate]| |apply read_or in T; [exact T|discriminate]].
      destruct (ts_sensors s1) as [|x xs] eqn:X; [destruct (ts_sensors s); [contradiction|discriminate]|].
      exists (widen (ss_sensed x)). assert (I : In (widen (ss_sensed x)) (sensed s1)) by (unfold sensed; rewrite X; now left).
      split; [exact I|]. now apply (proj1 (read_and _ _ _ _) T). }
    destruct B as (t & I & _ & [A|A]); [rewrite (P t I) in A|rewrite S0 in A]; discriminate.
Qed.
Print Assumptions C203_stays_off.
(** All sensors below the band turn the heat on and all above it turn it off, whatever the logic. *)
Theorem C203_all : forall (c : thcfg F D) m us s s', ts_sensors s <> [] -> th_update c m us s = Ret s' ->
  ((forall t, In t (sensed s') -> (band_high c s <~ t) = false /\ (t <~ band_low c s) = true) -> ts_nominal s' = true) /\
  ((forall t, In t (sensed s') -> (band_high c s <~ t) = true) -> ts_nominal s' = false).
Proof.
  intros c m us s s' N H. pose proof (op_len c (TUpdate m us) s s' H) as L.
  destruct (ts_sensors s') as [|x xs] eqn:X; [destruct (ts_sensors s); [contradiction|discriminate]|].
  assert (I : In (widen (ss_sensed x)) (sensed s')) by (unfold sensed; rewrite X; now left).
  apply update_inv in H. destruct H as (_ & _ & _ & _ & -> & _). split; intros A.
  - destruct (tc_logic c) eqn:Lg; [apply read_or; [discriminate|]|apply read_and|apply read_or; [discriminate|]].
    + exists (widen (ss_sensed x)). destruct (A _ I). unfold asks. auto.
    + intros t It. destruct (A _ It). unfold asks. auto.
    + exists (widen (ss_sensed x)). destruct (A _ I). unfold asks. auto.
  - apply not_true_is_false. intro T. destruct (tc_logic c) eqn:Lg.
    + apply read_or in T; [|discriminate]. destruct T as (t & It & B & _). rewrite (A t It) in B. discriminate.
    + apply (proj1 (read_and _ _ _ _)) with (t := widen (ss_sensed x)) in T; [|exact I]. destruct T as [B _]. rewrite (A _ I) in B. discriminate.
    + apply read_or in T; [|discriminate]. destruct T as (t & It & B & _). rewrite (A t It) in B. discriminate.
Qed.
Print Assumptions C203_all.

(** ** C204 *)
(** The command that leaves: off malfunction, then on malfunction, then kill switch, then thermostat. *)
Theorem C204_order : forall (c : thcfg F D) m us s s', th_update c m us s = Ret s' ->
  (tm_off m = true -> ts_actual s' = false) /\
  (tm_off m = false -> tm_on m = true -> ts_actual s' = true) /\
  (tm_off m = false -> tm_on m = false -> tm_kill m = true -> ts_actual s' = false) /\
  (tm_off m = false -> tm_on m = false -> tm_kill m = false -> ts_actual s' = ts_cmd s').
Proof.
  intros c m us s s' H. apply update_inv in H. destruct H as (_ & _ & _ & _ & _ & _ & -> & _). unfold consider_malfs.
  destruct (tm_off m), (tm_on m), (tm_kill m); repeat split; intros; congruence.
Qed.
Print Assumptions C204_order.
(** Without overridden limits the command is the nominal one, whatever happened before. *)
Theorem C204_release : forall (c : thcfg F D) m us s s', tm_lowf m = false -> tm_highf m = false -> th_update c m us s = Ret s' ->
  ts_cmd s' = ts_nominal s' /\ ts_low s' = band_low c s /\ ts_high s' = band_high c s.
Proof.
  intros c m us s s' A B H. apply update_inv in H. destruct H as (_ & _ & L & G & -> & -> & _). rewrite L, G, A, B. auto.
Qed.
Print Assumptions C204_release.
(** With them it is that of the overridden band with a memory of its own. *)
Theorem C204_override : forall (c : thcfg F D) m us s s', tm_lowf m || tm_highf m = true -> th_update c m us s = Ret s' ->
  ts_low s' = (if tm_lowf m then tm_low m else band_low c s) /\ ts_high s' = (if tm_highf m then tm_high m else band_high c s) /\
  (tc_logic c <> AND -> (ts_cmd s' = true <-> exists t, In t (sensed s') /\ asks (ts_low s') (ts_high s') (ts_cmd s) t)) /\
  (tc_logic c = AND -> (ts_cmd s' = true <-> forall t, In t (sensed s') -> asks (ts_low s') (ts_high s') (ts_cmd s) t)).
Proof.
  intros c m us s s' A H. apply update_inv in H. destruct H as (_ & _ & L & G & _ & K & _). rewrite A in K.
  split; [exact L|]. split; [exact G|]. rewrite K. split; intros E; [now apply read_or|rewrite E; apply read_and].
Qed.
Print Assumptions C204_override.
(** The nominal command does not depend on the malfunctions, whenever they come and go. *)
Fixpoint same_ops (os os' : list thop) : Prop :=
  match os, os' with
  | [], [] => True
  | TSet x :: r, TSet x' :: r' => x = x' /\ same_ops r r'
  | TBias x :: r, TBias x' :: r' => x = x' /\ same_ops r r'
  | TUpdate _ us :: r, TUpdate _ us' :: r' => us = us' /\ same_ops r r'
  | _, _ => False
  end.
Theorem C204_shadow : forall (c : thcfg F D) os os' s s' e e', same_ops os os' ->
  ts_sensors s = ts_sensors s' -> ts_setpt s = ts_setpt s' -> ts_nominal s = ts_nominal s' ->
  th_run c s os = Ret e -> th_run c s' os' = Ret e' -> ts_nominal e = ts_nominal e' /\ ts_setpt e = ts_setpt e'.
Proof.
  intros c os. induction os as [|o r IH]; intros [|o' r'] s s' e e' Q A B N R R'; try (destruct o as [x|b|m us]; contradiction); try contradiction.
  - cbn in R, R'. injection R as <-. injection R' as <-. auto.
  - cbn [th_run] in R, R'. apply bindO_ret in R. destruct R as (s1 & E & R). apply bindO_ret in R'. destruct R' as (s1' & E' & R').
    assert (G : same_ops r r' /\ ts_sensors s1 = ts_sensors s1' /\ ts_setpt s1 = ts_setpt s1' /\ ts_nominal s1 = ts_nominal s1').
    { destruct o as [x|b|m us], o' as [x'|b'|m' us']; try contradiction; destruct Q as [<- Q]; cbn [th_op] in E, E'.
      - injection E as <-. injection E' as <-. cbn. auto.
      - injection E as <-. injection E' as <-. cbn. auto.
      - apply update_inv in E. apply update_inv in E'. destruct E as (E1 & _ & _ & _ & E2 & _ & _ & E3). destruct E' as (F1 & _ & _ & _ & F2 & _ & _ & F3).
        rewrite A in E3. assert (Z : ts_sensors s1 = ts_sensors s1') by congruence. repeat split; auto; [congruence|].
        rewrite E2, F2. unfold sensed, band_low, band_high. now rewrite Z, B, N. }
    destruct G as (G1 & G2 & G3 & G4). eapply IH; eauto.
Qed.
Print Assumptions C204_shadow.
(** A bias is a set point that far from the middle of the nominal band. *)
Theorem C204_bias : forall (c : thcfg F D) m us s b,
  th_update c m us (set_bias c s b) = th_update c m us (set_setpt s (ndec 5 (-1) *~ (tc_low c +~ tc_high c) +~ b)).
Proof. reflexivity. Qed.
Print Assumptions C204_bias.
End GENERIC.

(** The band the set point asks for is as wide as the nominal one, with the set point in its middle. *)
Theorem C203_band : forall (c : thcfg R R) m us s s', tm_lowf m = false -> tm_highf m = false -> th_update c m us s = Ret s' ->
  (ts_low s' + ts_high s') / 2 = ts_setpt s /\ ts_high s' - ts_low s' = tc_high c - tc_low c /\
  ts_bias s' = ts_setpt s - (tc_low c + tc_high c) / 2.
Proof.
  intros c m us s s' A B H. pose proof (C204_release c m us s s' A B H) as (_ & -> & ->). apply update_inv in H. destruct H as (_ & -> & _).
  unfold band_low, band_high, th_mid. rnum. assert (Z : Rdec 5 (-1) = 1 / 2) by (unfold Rdec; cbn; lra). try rewrite Z. lra.
Qed.
Print Assumptions C203_band.

(** Two sensors with the OR and with the AND logic, cold, in the band, hot and in the band. *)
Definition x_cfg (l : logic) : thcfg f32 float :=
  mkthcfg 10%float 20%float 2 l (mkSensorConfig (fl (-100)) (fl 100) (fl 0) (fl 0) (fl 1) (fl 0) (fl 0) (fl 0) false (fun x => x)).
Definition x_none : thmalf float := mkthmalf false false false false 0%float false 1%float.
Definition x_use (a b : float) (i : nat) : SensorUse f32 float :=
  mkSensorUse (cleared true) (match i with 0%nat => a | _ => b end) 1%float (fun _ => 0%float).
Definition x_run (l : logic) (os : list thop) : outcome (option bool) :=
  let! s := th_init (x_cfg l) x_none (cleared true) 15%float (fl 0) (fun _ _ => 0%float) in
  match s with Some s => let! s := th_run (x_cfg l) s os in Ret (Some (ts_actual s)) | None => Ret None end.
Example C203_example :
  let cold := TUpdate x_none (x_use 5%float 15%float) in
  let mid := TUpdate x_none (x_use 12%float 15%float) in
  let hot := TUpdate x_none (x_use 25%float 15%float) in
  let hots := TUpdate x_none (x_use 25%float 25%float) in
  let colds := TUpdate x_none (x_use 5%float 5%float) in
  map (x_run OR) [[mid]; [cold]; [cold; mid]; [cold; mid; hot]; [cold; mid; hot; hots]; [cold; hots; mid]; [cold; TBias (-4)%float; mid]; [cold; TBias (-10)%float; mid]] =
    map (fun b => Ret (Some b)) [false; true; true; true; false; false; true; false] /\
  map (x_run AND) [[mid]; [cold]; [colds]; [colds; mid]; [colds; mid; hot]; [colds; hot; mid; cold]; [TSet 30%float; mid]] =
    map (fun b => Ret (Some b)) [false; false; true; true; false; false; true].
Proof. vm_compute. split; reflexivity. Qed.
Print Assumptions C203_example.

(** The values of the overrides are checked against each other and not against the other limit: a
    valid override of the low limit turns the band upside down. *)
Theorem C204_inverted_refuted : exists (c : thcfg R R) m us s s',
  th_valid c m = true /\ sensor_valid (tc_sensor c) = true /\ length (ts_sensors s) = tc_num c /\ ts_setpt s = (tc_low c + tc_high c) / 2 /\
  th_update c m us s = Ret s' /\ ts_high s' < ts_low s'.
Proof.
  set (sc := mkSensorConfig (F := R) (D := R) 0 100 0 0 1 0 0 0 false (fun x => x)).
  set (m := mkthmalf false false false true 30 false 40).
  set (us := fun _ : nat => mkSensorUse (F := R) (D := R) (mkSensorMalf false false false false false true 0 false 0 false 0 false 0 false 0 0 false 0) 25 1 (fun _ => 0)).
  set (s := mkthstate (F := R) (D := R) [mkSensorState 0 0 0 false] 15 0 10 20 false false false).
  exists (mkthcfg 10 20 1 SINGLE sc), m, us, s. unfold th_update. cbn -[Rdec RNum]. eexists.
  split. { unfold th_valid, m. cbn -[Rdec]. rcases; try lra; reflexivity. }
  split. { unfold sensor_valid, sc, is_in_range. cbn -[Rdec]. rcases; try lra; reflexivity. }
  split; [reflexivity|]. split; [lra|]. split; [reflexivity|]. cbn [ts_low ts_high]. unfold th_mid. cbn [tc_low tc_high]. rnum.
  assert (Z : Rdec 5 (-1) = 1 / 2) by (unfold Rdec; cbn; lra). rewrite Z. lra.
Qed.
Print Assumptions C204_inverted_refuted.
(** Overrides of both limits that pass the check make a band. *)
Theorem C204_both : forall (c : thcfg R R) m us s s', th_valid c m = true -> tm_lowf m = true -> tm_highf m = true ->
  th_update c m us s = Ret s' -> ts_low s' < ts_high s'.
Proof.
  intros c m us s s' V A B H. apply update_inv in H. destruct H as (_ & _ & -> & -> & _). rewrite A, B. unfold th_valid in V.
  apply andb_true_iff in V. destruct V as [_ V]. apply negb_true_iff in V. cbn in V. destruct (Rleb_spec (tm_high m) (tm_low m)); [discriminate|lra].
Qed.
Print Assumptions C204_both.
(** Unpowered sensors whose off value is below the band turn the heat on. *)
Theorem C203_dead_sensors : forall (c : thcfg R R) m us s s', sensor_valid (tc_sensor c) = true -> ts_sensors s <> [] ->
  (forall i, sm_perfect (u_malf (us i)) = false /\ sm_power (u_malf (us i)) = false /\ sm_ignore_power (u_malf (us i)) = false) ->
  sc_off (tc_sensor c) < band_low c s -> band_low c s <= band_high c s -> th_update c m us s = Ret s' -> ts_nominal s' = true.
Proof.
  intros c m us s s' V N P L W H. apply (proj1 (C203_all c m us s s' N H)). apply update_inv in H. destruct H as (_ & _ & _ & _ & _ & _ & _ & H).
  assert (G : forall ss i ss', update_sensors (tc_sensor c) us i ss = Ret ss' -> forall x, In x ss' -> ss_sensed x = sc_off (tc_sensor c)).
  { induction ss as [|x r IH]; intros i ss' E; cbn [update_sensors] in E; [injection E as <-; intros y []|].
    apply bindO_ret in E. destruct E as (s1 & E1 & E). apply bindO_ret in E. destruct E as (r1 & E2 & E). injection E as <-.
    destruct (P i) as (P1 & P2 & P3).
    destruct (C49_off (tc_sensor c) (u_malf (us i)) (u_truth (us i)) (u_dt (us i)) (u_draw (us i)) x V P1 (or_introl (conj P2 P3))) as (s2 & E3 & E4 & _).
    rewrite E1 in E3. injection E3 as <-. intros y [<-|I]; [exact E4|]. eapply IH; eauto. }
  intros t I. unfold sensed in I. apply in_map_iff in I. destruct I as (x & <- & I). rewrite (G _ _ _ H x I). cbn -[band_low band_high].
  split; [apply Rltb_false|apply Rltb_true]; lra.
Qed.
Print Assumptions C203_dead_sensors.
