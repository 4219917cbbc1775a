(** C206, C207: the smoke detector. *)
From Coq Require Import Floats.
From Coq Require Import Reals Lra Lia List Arith Bool ZArith.
From Verif Require Import Num Ord MathUtil Props_Math MsgQueue F32 Sensor Props_Sensor Spec_Interp Props_Pid Spec_Valve Props_Valve Detector Props_Detector.
From Verif Require Valve.
Import ListNotations.
Local Open Scope R_scope.

(** The detector draws power. *)
Definition on (i : sdin R R) : Prop := (di_power i = true \/ di_force i = true) /\ di_fail i = false.
Lemma on_dec (i : sdin R R) : (di_power i || di_force i) && negb (di_fail i) = true <-> on i.
Proof. unfold on. destruct (di_power i), (di_force i), (di_fail i); cbn; intuition discriminate. Qed.
Lemma sd_off : forall k (i : sdin R R) s s', sd_update k i s = Ret s' -> ~ on i ->
  ds_load s' = false /\ ds_process s' = ds_process s /\ ds_timer s' = ds_timer s /\
  ds_obs s' = limit_range (sd_omin k) (sd_ooff k) (sd_omax k) /\ ds_scat s' = limit_range 0 (sd_soff k) (sd_smax k).
Proof.
  intros k i s s' H N. assert (L : (di_power i || di_force i) && negb (di_fail i) = false).
  { apply not_true_is_false. intro T. now apply N, on_dec. }
  unfold sd_update in H. rewrite L in H. apply bindO_ret in H. destruct H as (o & _ & H). apply bindO_ret in H. destruct H as (c & _ & H).
  injection H as <-. cbn [ds_load ds_process ds_timer ds_obs ds_scat]. repeat split; reflexivity.
Qed.
Lemma sd_bit_on : forall k (i : sdin R R) s s', sd_update k i s = Ret s' -> on i -> di_bit i = true \/ ds_process s = true ->
  ds_load s' = true /\ ds_process s' = (ds_timer s <=~ sd_recover k) /\ ds_timer s' = (if di_bit i then ds_timer s else ds_timer s + di_dt i) /\
  ds_obs s' = limit_range (sd_omin k) (sd_omax k) (sd_omax k) /\ ds_scat s' = limit_range 0 (if di_bit i then sd_bit k else sd_smin k) (sd_smax k).
Proof.
  intros k i s s' H N B. apply on_dec in N. unfold sd_update in H. rewrite N in H.
  assert (Q : di_bit i || ds_process s = true) by (destruct B as [-> | ->]; auto using orb_true_r). rewrite Q in H. unfold bit_test in H.
  destruct (di_bit i); apply bindO_ret in H; destruct H as (o & _ & H); apply bindO_ret in H; destruct H as (c & _ & H);
  injection H as <-; cbn [ds_load ds_process ds_timer ds_obs ds_scat]; repeat split; reflexivity.
Qed.
Lemma sd_normal : forall k (i : sdin R R) s s', sd_update k i s = Ret s' -> on i -> di_bit i = false -> ds_process s = false ->
  ds_load s' = true /\ ds_process s' = false /\ ds_timer s' = 0 /\
  ds_obs s' = limit_range (sd_omin k) (sd_onom k + sd_osmoke k * di_smoke i) (sd_omax k) /\
  ds_scat s' = limit_range 0 (sd_snom k + (sd_smax k - sd_snom k) * di_smoke i) (sd_smax k).
Proof.
  intros k i s s' H N B P. apply on_dec in N. unfold sd_update in H. rewrite N, B, P in H. cbn [orb] in H.
  apply bindO_ret in H; destruct H as (o & _ & H); apply bindO_ret in H; destruct H as (c & _ & H);
  injection H as <-; cbn [ds_load ds_process ds_timer ds_obs ds_scat]; repeat split; reflexivity.
Qed.

(** ** C206: the built-in test *)
(** While it is commanded the detector shows the largest obscuration and the test's scatter. *)
Theorem C206_commanded : forall k (i : sdin R R) s s', sd_valid k (di_smoke i) 0 = true -> sd_bit k <= sd_smax k -> 0 <= sd_bit k -> on i -> di_bit i = true ->
  sd_update k i s = Ret s' -> ds_obs s' = sd_omax k /\ ds_scat s' = sd_bit k /\ ds_timer s' = ds_timer s.
Proof.
  intros k i s s' V L P N B H. destruct (sd_bit_on k i s s' H N (or_introl B)) as (_ & _ & T & O' & S'). rewrite B in T, S'.
  unfold sd_valid in V. repeat (apply andb_true_iff in V; destruct V as [V ?]). apply negb_true_iff, leN in V.
  rewrite O', S'. rewrite !limit_within by lra. unfold within. rewrite !Rmin_left by lra. rewrite !Rmax_right by lra. auto.
Qed.
Print Assumptions C206_commanded.
(** After the command is gone, with steps of one length, the detector stays quiet up to and with the
    second step that starts later than the recovery time, and then works again. *)
Definition released (d : R) (i : sdin R R) : Prop := on i /\ di_bit i = false /\ di_dt i = d.
Lemma quiet_run : forall k d is s s', 0 < d -> 0 < sd_recover k -> Forall (released d) is -> is <> [] ->
  ds_process s = true -> ds_timer s = 0 ->
  INR (length is) * d - 2 * d <= sd_recover k -> sd_run k s is = Ret s' ->
  ds_timer s' = INR (length is) * d /\ (ds_process s' = true <-> INR (length is) * d - d <= sd_recover k) /\
  ds_obs s' = limit_range (sd_omin k) (sd_omax k) (sd_omax k) /\ ds_scat s' = limit_range 0 (sd_smin k) (sd_smax k).
Proof.
  intros k d is s s' D RC FA NE P0 T0 LE RN.
  assert (G : forall is j s s', Forall (released d) is -> is <> [] -> ds_process s = true -> ds_timer s = INR j * d ->
    INR (j + length is) * d - 2 * d <= sd_recover k -> sd_run k s is = Ret s' ->
    ds_timer s' = INR (j + length is) * d /\ (ds_process s' = true <-> INR (j + length is) * d - d <= sd_recover k) /\
    ds_obs s' = limit_range (sd_omin k) (sd_omax k) (sd_omax k) /\ ds_scat s' = limit_range 0 (sd_smin k) (sd_smax k)).
  { clear is s s' FA NE P0 T0 LE RN. induction is as [|i r IH]; intros j s s' FA NE P T LE RN; [contradiction|].
    cbn [sd_run] in RN. apply bindO_ret in RN. destruct RN as (s1 & E & RN). destruct (Forall_inv FA) as (N & B & DT).
    destruct (sd_bit_on k i s s1 E N (or_intror P)) as (_ & P1 & T1 & O1 & S1). rewrite B in T1, S1. rewrite DT in T1.
    destruct r as [|i2 r].
    - cbn in RN. injection RN as <-. cbn [length] in *. rewrite T1, T. replace (j + 1)%nat with (S j) in * by lia. rewrite S_INR in *.
      split; [lra|]. split; [|auto]. rewrite P1, leI, T. split; intros; lra.
    - assert (Q : ds_process s1 = true).
      { rewrite P1. apply leI. rewrite T. cbn [length] in LE. rewrite plus_INR in LE. rewrite !S_INR in LE. pose proof (pos_INR (length r)).
        assert (0 <= INR (length r) * d) by (apply Rmult_le_pos; lra). lra. }
      assert (LE' : INR (S j + length (i2 :: r)) * d - 2 * d <= sd_recover k).
      { replace (S j + length (i2 :: r))%nat with (j + length (i :: i2 :: r))%nat by (cbn [length]; lia). exact LE. }
      assert (T' : ds_timer s1 = INR (S j) * d) by (rewrite T1, T, S_INR; lra).
      pose proof (IH (S j) s1 s' (Forall_inv_tail FA) ltac:(discriminate) Q T' LE' RN) as K.
      replace (S j + length (i2 :: r))%nat with (j + length (i :: i2 :: r))%nat in K by (cbn [length]; lia). exact K. }
  apply (G is 0%nat s s'); auto. rewrite T0. cbn. lra.
Qed.
Theorem C206_quiet : forall k d b is s s1 s2, 0 < d -> 0 < sd_recover k -> Forall (released d) is -> is <> [] ->
  on b -> di_bit b = true -> ds_timer s = 0 -> sd_update k b s = Ret s1 -> sd_run k s1 is = Ret s2 ->
  INR (length is) * d - 2 * d <= sd_recover k ->
  ds_timer s2 = INR (length is) * d /\
  ds_obs s2 = limit_range (sd_omin k) (sd_omax k) (sd_omax k) /\ ds_scat s2 = limit_range 0 (sd_smin k) (sd_smax k) /\
  (forall i s3, released d i -> sd_update k i s2 = Ret s3 -> sd_recover k < INR (length is) * d - d ->
     ds_timer s3 = 0 /\ ds_process s3 = false /\ ds_scat s3 = limit_range 0 (sd_snom k + (sd_smax k - sd_snom k) * di_smoke i) (sd_smax k)).
Proof.
  intros k d b is s s1 s2 D RC FA NE N B T E RN LE.
  destruct (sd_bit_on k b s s1 E N (or_introl B)) as (_ & P1 & T1 & _). rewrite B in T1.
  assert (Q : ds_process s1 = true) by (rewrite P1; apply leI; rewrite T; lra).
  destruct (quiet_run k d is s1 s2 D RC FA NE Q ltac:(lra) LE RN) as (A1 & A2 & A3 & A4). repeat (split; [assumption|]).
  intros i s3 (N3 & B3 & D3) E3 LT. assert (Z : ds_process s2 = false). { apply not_true_is_false. intro X. apply A2 in X. lra. }
  destruct (sd_normal k i s2 s3 E3 N3 B3 Z) as (_ & F1 & F2 & _ & F3). auto.
Qed.
Print Assumptions C206_quiet.
(** The timer never exceeds the recovery time by more than two steps, whatever is commanded and
    whatever power comes and goes. *)
Theorem C206_timer : forall k d is s s', 0 <= d -> 0 <= sd_recover k -> Forall (fun i => 0 <= di_dt i <= d) is ->
  0 <= ds_timer s <= sd_recover k + 2 * d -> (ds_process s = true -> ds_timer s <= sd_recover k + d) -> sd_run k s is = Ret s' ->
  0 <= ds_timer s' <= sd_recover k + 2 * d.
Proof.
  intros k d is. induction is as [|i r IH]; intros s s' D RC FA T P RN; cbn in RN; [now injection RN as <-|].
  apply bindO_ret in RN. destruct RN as (s1 & E & RN). pose proof (Forall_inv FA) as Fi. pose proof (Forall_inv_tail FA) as Fr.
  assert (K : 0 <= ds_timer s1 <= sd_recover k + 2 * d /\ (ds_process s1 = true -> ds_timer s1 <= sd_recover k + d)).
  { destruct (bool_dec ((di_power i || di_force i) && negb (di_fail i)) true) as [N|N].
    - apply on_dec in N. destruct (di_bit i) eqn:B.
      + destruct (sd_bit_on k i s s1 E N (or_introl B)) as (_ & P1 & T1 & _). rewrite B in T1. rewrite T1, P1, leI. split; [exact T|intros; lra].
      + destruct (ds_process s) eqn:Q.
        * destruct (sd_bit_on k i s s1 E N (or_intror Q)) as (_ & P1 & T1 & _). rewrite B in T1. rewrite T1, P1, leI. specialize (P eq_refl). split; [lra|intros; lra].
        * destruct (sd_normal k i s s1 E N B Q) as (_ & P1 & T1 & _). rewrite T1, P1. split; [lra|discriminate].
    - assert (NO : ~ on i) by (intro X; apply N, on_dec, X). destruct (sd_off k i s s1 E NO) as (_ & P1 & T1 & _). rewrite P1, T1. auto. }
  destruct K as [K1 K2]. exact (IH s1 s' D RC Fr K1 K2 RN).
Qed.
Print Assumptions C206_timer.
(** A loss of power, however long, only interrupts it. *)
Theorem C206_power : forall k is (s s' : sdstate R R), Forall (fun i => ~ on i) is -> sd_run k s is = Ret s' ->
  ds_timer s' = ds_timer s /\ ds_process s' = ds_process s.
Proof.
  intros k is. induction is as [|i r IH]; intros s s' FA RN; cbn in RN; [injection RN as <-; auto|].
  apply bindO_ret in RN. destruct RN as (s1 & E & RN). destruct (sd_off k i s s1 E (Forall_inv FA)) as (_ & P & T & _).
  destruct (IH s1 s' (Forall_inv_tail FA) RN) as [A B]. rewrite A, B. auto.
Qed.
Print Assumptions C206_power.

(** ** C207: what it shows *)
(** The load is on with power, real or forced, and without the failure. *)
Theorem C207_load : forall k (i : sdin R R) s s', sd_update k i s = Ret s' -> (ds_load s' = true <-> on i).
Proof.
  intros k i s s' H. rewrite <- on_dec. unfold sd_update in H.
  destruct ((di_power i || di_force i) && negb (di_fail i)), (di_bit i || ds_process s), (di_bit i); cbn [bit_test] in H; unfold bit_test in H;
  apply bindO_ret in H; destruct H as (o & _ & H); apply bindO_ret in H; destruct H as (c & _ & H); injection H as <-; reflexivity.
Qed.
Print Assumptions C207_load.
(** Both values are within their ranges after every update. *)
Theorem C207_range : forall k (i : sdin R R) s s', sd_omin k <= sd_omax k -> 0 <= sd_smax k -> sd_update k i s = Ret s' ->
  sd_omin k <= ds_obs s' <= sd_omax k /\ 0 <= ds_scat s' <= sd_smax k.
Proof.
  intros k i s s' L1 L2 H.
  assert (G : forall lo x hi : R, lo <= hi -> lo <= limit_range lo x hi <= hi).
  { intros lo x hi L. rewrite limit_within by exact L. unfold within. split; [apply Rmax_l|apply Rmax_lub; [exact L|apply Rmin_r]]. }
  destruct (bool_dec ((di_power i || di_force i) && negb (di_fail i)) true) as [N|N].
  - apply on_dec in N. destruct (bool_dec (di_bit i || ds_process s) true) as [B|B].
    + destruct (sd_bit_on k i s s' H N) as (_ & _ & _ & -> & ->); [apply orb_true_iff; exact B|]. split; apply G; assumption.
    + apply not_true_is_false, orb_false_iff in B. destruct B. destruct (sd_normal k i s s' H N) as (_ & _ & _ & -> & ->); auto.
  - destruct (sd_off k i s s' H) as (_ & _ & _ & -> & ->); [intro X; apply N, on_dec, X|]. split; apply G; assumption.
Qed.
Print Assumptions C207_range.
(** In operation the scatter goes from its nominal value to its largest with the smoke, and more
    smoke never shows less. *)
Theorem C207_smoke : forall k (i : sdin R R) s s', sd_valid k (di_smoke i) 0 = true -> 0 <= sd_smin k -> sd_snom k <= sd_smax k ->
  on i -> di_bit i = false -> ds_process s = false -> sd_update k i s = Ret s' ->
  ds_scat s' = sd_snom k + (sd_smax k - sd_snom k) * di_smoke i /\
  ds_obs s' = Rmax (sd_omin k) (Rmin (sd_onom k + sd_osmoke k * di_smoke i) (sd_omax k)) /\ ds_timer s' = 0.
Proof.
  intros k i s s' V P L N B Q H. destruct (sd_normal k i s s' H N B Q) as (_ & _ & T & O' & S').
  unfold sd_valid in V. repeat (apply andb_true_iff in V; destruct V as [V ?]).
  repeat match goal with X : negb _ = true |- _ => apply negb_true_iff in X end.
  repeat match goal with X : (_ <=~ _) = false |- _ => apply leN in X | X : (_ <~ _) = false |- _ => apply ltN in X end. cbn in *.
  assert (M : 0 <= (sd_smax k - sd_snom k) * di_smoke i <= sd_smax k - sd_snom k).
  { split; [apply Rmult_le_pos; lra|]. rewrite <- (Rmult_1_r (sd_smax k - sd_snom k)) at 2. apply Rmult_le_compat_l; lra. }
  rewrite O', S'. rewrite !limit_within by lra. unfold within. split; [|split; [reflexivity|exact T]]. rewrite Rmin_left by lra. apply Rmax_right. lra.
Qed.
Print Assumptions C207_smoke.
Theorem C207_more_smoke : forall k (i i' : sdin R R) s s0 s' s0', sd_omin k <= sd_omax k -> 0 <= sd_smax k -> 0 <= sd_osmoke k -> sd_snom k <= sd_smax k ->
  on i -> on i' -> di_bit i = false -> di_bit i' = false -> ds_process s = false -> ds_process s0 = false -> di_smoke i <= di_smoke i' ->
  sd_update k i s = Ret s' -> sd_update k i' s0 = Ret s0' -> ds_obs s' <= ds_obs s0' /\ ds_scat s' <= ds_scat s0'.
Proof.
  intros k i i' s s0 s' s0' L1 L2 C' L3 N N' B B' Q Q' LE H H'. destruct (sd_normal k i s s' H N B Q) as (_ & _ & _ & -> & ->).
  destruct (sd_normal k i' s0 s0' H' N' B' Q') as (_ & _ & _ & -> & ->).
  assert (G : forall lo x y hi : R, lo <= hi -> x <= y -> limit_range lo x hi <= limit_range lo y hi).
  { intros lo x y hi L X. rewrite !limit_within by exact L. unfold within. apply Rle_max_compat_l. apply Rle_min_compat_r. exact X. }
  split; apply G; auto; apply Rplus_le_compat_l; apply Rmult_le_compat_l; lra.
Qed.
Print Assumptions C207_more_smoke.
(** Without load both sensors show their off values, but for the malfunctions that ignore power. *)
Theorem C207_off : forall k (i : sdin R R) s s', sensor_valid (D := R) (obs_sensor k) = true -> sensor_valid (D := R) (scat_sensor k) = true -> ~ on i ->
  sm_perfect (di_om i) = false -> sm_ignore_power (di_om i) = false -> sm_perfect (di_sm i) = false -> sm_ignore_power (di_sm i) = false ->
  sd_update k i s = Ret s' ->
  ss_sensed (ds_osens s') = sd_ooff k /\ ss_sensed (ds_ssens s') = sd_soff k /\
  ds_ovolt s' = sd_oslope k * sd_ooff k + sd_oicpt k /\ ds_svolt s' = sd_sslope k * sd_soff k + sd_sicpt k.
Proof.
  intros k i s s' V1 V2 N A1 A2 B1 B2 H. assert (L : (di_power i || di_force i) && negb (di_fail i) = false).
  { apply not_true_is_false. intro T. now apply N, on_dec. }
  unfold sd_update in H. rewrite L in H.
  match type of H with bindO (sensor_update ?c ?m ?t ?d ?dr ?s0) _ = _ => destruct (C49_off c m t d dr s0 V1 A1 (or_introl (conj eq_refl A2))) as (o & E & R1 & _) end.
  rewrite E in H. cbn [bindO] in H.
  match type of H with bindO (sensor_update ?c ?m ?t ?d ?dr ?s0) _ = _ => destruct (C49_off c m t d dr s0 V2 B1 (or_introl (conj eq_refl B2))) as (o2 & E2 & R2 & _) end.
  rewrite E2 in H. cbn [bindO] in H. injection H as <-. cbn [ds_osens ds_ssens ds_ovolt ds_svolt]. rewrite R1, R2. cbn. auto.
Qed.
Print Assumptions C207_off.

(** ** Witnesses in binary32 *)
Definition y_mal (perfect : bool) : SensorMalf f32 :=
  mkSensorMalf true false false false false perfect (fl 0) false (fl 0) false (fl 0) false (fl 0) false (fl 0) (fl 0) false (fl 0).
Definition y_in (bit : bool) (dt : float) : sdin f32 float :=
  mksdin true bit (fl 0) false false (fl dt) (y_mal true) (y_mal true) (fun _ => 0%float) (fun _ => 0%float).
Definition y_cfg (omax slope : float) : sdcfg f32 :=
  let d : sdcfg f32 := sd_default in
  mksdcfg (fl omax) (sd_omin d) (sd_osmoke d) (sd_smax d) (sd_smin d) (sd_bit d) (sd_onom d) (sd_snom d) (sd_recover d)
    (sd_ooff d) (sd_soff d) (fl slope) (sd_oicpt d) (sd_sslope d) (sd_sicpt d).
Definition y_run {A : Type} (u : sdcfg f32) (is : list (sdin f32 float)) (g : sdcfg f32 -> sdstate f32 float -> A) : outcome (option A) :=
  let! r := sd_init u true (fl 0) (fl 0) (y_mal true) (y_mal true) 50%float 1%float (fl 0) (fl 0) (fun _ => 0%float) (fun _ => 0%float) in
  match r with Some (k, s) => let! s := sd_run k s is in Ret (Some (g k s)) | None => Ret None end.
(** The quiet period after a test is three steps of one second with the recovery time of 1.5. *)
Example C206_example :
  map (fun n => y_run (y_cfg 104 (-1)) (y_in true 1%float :: repeat (y_in false 1%float) n)
                  (fun k s => (nnan (ds_scat s), ds_scat s ==~ sd_bit k, ds_scat s ==~ sd_smin k, ds_scat s ==~ sd_snom k))) [0%nat; 1%nat; 2%nat; 3%nat; 4%nat; 5%nat] =
  map (fun t => Ret (Some t)) [(false, true, false, false); (false, false, true, false); (false, false, true, false); (false, false, true, false);
    (false, false, false, true); (false, false, false, true)].
Proof. vm_compute. reflexivity. Qed.
(** A second test commanded during the quiet period does not start it anew: the command given in
    the third step, there is no quiet period after it at all. *)
Theorem C206_again_refuted : exists (u : sdcfg f32) (is : list (sdin f32 float)),
  y_run u (is ++ [y_in true 1%float; y_in false 1%float]) (fun k s => (ds_scat s ==~ sd_snom k, ds_timer s ==~ n0)) = Ret (Some (true, true)) /\
  y_run u (is ++ [y_in true 1%float]) (fun k s => (ds_scat s ==~ sd_bit k, n1 <~ sd_recover k)) = Ret (Some (true, true)).
Proof. exists (y_cfg 104 (-1)), [y_in true 1%float; y_in false 1%float; y_in false 1%float]. vm_compute. split; reflexivity. Qed.
Print Assumptions C206_again_refuted.
(** The slope of the configuration is not used. *)
Theorem C207_slope_refuted : exists (u : sdcfg f32) (is : list (sdin f32 float)),
  y_run u is (fun _ s => ds_ovolt s ==~ (sd_oslope u *~ ss_sensed (ds_osens s) +~ sd_oicpt u)) = Ret (Some false).
Proof. exists (y_cfg 104 (-1)), [y_in false 1%float]. vm_compute. reflexivity. Qed.
Print Assumptions C207_slope_refuted.
Theorem C207_slope : forall (u u' : sdcfg R) , sd_omax u = sd_omax u' -> sd_omin u = sd_omin u' -> sd_osmoke u = sd_osmoke u' -> sd_smax u = sd_smax u' ->
  sd_smin u = sd_smin u' -> sd_bit u = sd_bit u' -> sd_onom u = sd_onom u' -> sd_snom u = sd_snom u' -> sd_recover u = sd_recover u' ->
  sd_ooff u = sd_ooff u' -> sd_soff u = sd_soff u' -> forall load smoke timer om sm ot st od sd dr dr',
  sd_init (D := R) u load smoke timer om sm ot st od sd dr dr' = sd_init u' load smoke timer om sm ot st od sd dr dr'.
Proof. intros u u' A B C' E G H I J K L M. intros. unfold sd_init. replace (sd_take u') with (sd_take u); [reflexivity|]. unfold sd_take. now rewrite A, B, C', E, G, H, I, J, K, L, M. Qed.
Print Assumptions C207_slope.
(** A perfect sensor does not show an obscuration above 104.12, whatever largest value is configured. *)
Theorem C207_largest_refuted : exists (u : sdcfg f32) (is : list (sdin f32 float)),
  y_run u is (fun _ s => (ds_obs s ==~ fl 200, fl 104.5 <~ ss_sensed (ds_osens s))) = Ret (Some (true, false)).
Proof. exists (y_cfg 200 (-1)), [y_in true 1%float]. vm_compute. reflexivity. Qed.
Print Assumptions C207_largest_refuted.
(** The voltages are the line of the constructor through the sensed values. *)
Theorem C207_volts : forall u load smoke timer om sm ot st od sd dr dr' k (s : sdstate R R) i s',
  sd_init u load smoke timer om sm ot st od sd dr dr' = Ret (Some (k, s)) -> sd_update k i s = Ret s' ->
  ds_ovolt s' = 4 - 8 / 100 * ss_sensed (ds_osens s') /\ ds_svolt s' = 201 / 100 * ss_sensed (ds_ssens s').
Proof.
  intros u load smoke timer om sm ot st od sd dr dr' k s i s' I H.
  assert (K : k = sd_take u).
  { unfold sd_init in I. destruct (sd_valid (sd_take u) smoke timer); [|discriminate]. apply bindO_ret in I. destruct I as (o & _ & I).
    apply bindO_ret in I. destruct I as (c & _ & I). destruct o, c; try discriminate. now injection I as <- _. }
  assert (V : ds_ovolt s' = sd_oslope k * ss_sensed (ds_osens s') + sd_oicpt k /\ ds_svolt s' = sd_sslope k * ss_sensed (ds_ssens s') + sd_sicpt k).
  { unfold sd_update in H.
    destruct ((di_power i || di_force i) && negb (di_fail i)), (di_bit i || ds_process s), (di_bit i); unfold bit_test in H;
    apply bindO_ret in H; destruct H as (o & _ & H); apply bindO_ret in H; destruct H as (c & _ & H); injection H as <-; split; reflexivity. }
  destruct V as [-> ->]. rewrite K. cbn [sd_take sd_oslope sd_oicpt sd_sslope sd_sicpt sd_default]. cbn -[Rdec ss_sensed].
  replace (Rdec (-8) (-2)) with (- (8 / 100)) by (unfold Rdec; cbn; lra). replace (Rdec 4 0) with 4 by (unfold Rdec; cbn; lra).
  replace (Rdec 201 (-2)) with (201 / 100) by (unfold Rdec; cbn; lra). lra.
Qed.
Print Assumptions C207_volts.

(** A valve with the end-of-travel interruption and a tolerant sensor never gets to its end. *)
Theorem C205_full_travel_refuted : exists (k : acfg R) (s : asm R), forall n,
  0 <= ac_tolopen k /\ ac_topen k = Valve.v_max (Valve.p_v (as_p s)) /\
  Valve.v_pos (Valve.p_v (as_p (Nat.iter n (fun s => asm_update 0 k s true true true false false 0 1) s))) < Valve.v_max (Valve.p_v (as_p s)).
Proof.
  set (v := Valve.mkvalve false false 0 false 0 1 0 1 (95 / 100) false 0 false false false 0).
  set (p := Valve.mkpowered v false false false false 0 1 1 1 1 1 1 1 true Valve.LATCHING true true 1 1 1).
  set (b := Valve.mkbsense true false false false false false false false true).
  exists (mkacfg 1 (1 / 10) 0 (1 / 10)), (mkasm p true false b b). intros n.
  split; [cbn; lra|]. split; [reflexivity|]. rewrite C205_stops_short; try reflexivity; try (split; [reflexivity|]; split; reflexivity).
  - cbn. lra.
  - cbn. lra.
  - cbn. unfold Rabs. destruct (Rcase_abs _); lra.
Qed.
Print Assumptions C205_full_travel_refuted.
