(** Settling of the fluid bus roles: proof for the case that side A is the one
    that takes the Demand role when both supply. *)
From Coq Require Import Reals Lra Lia List Arith Bool ZArith.
From Verif Require Import Num Loops Bus Spec_Bus BusFacts.
Import ListNotations.

(** What a packet found in a channel at frame 0 may carry: counters that its
    sender had reached by then. *)
Definition honest {T} (own peer : Z) (p : packet (T := T)) : Prop :=
  (0 <= p_count p <= own)%Z /\ (0 <= p_loop p <= peer)%Z.

Section SETTLE.
Variables (ea eb : nat -> fenv (T := R)) (lab lba : nat).
Variables (junka junkb : nat -> packet (T := R)).
Variables (a b : nat -> fbus (T := R)) (ca cb : R).

Notation L := (lab + lba)%nat.
Notation rxa := (received lba junkb (fun i => b_out (b i))).
Notation rxb := (received lab junka (fun i => b_out (a i))).
Notation da k := (in_demand (a k)).
Notation db k := (in_demand (b k)).

Definition horizon : nat := (4 * (lab + lba) + 8)%nat.

Hypothesis Htr : pair_trace (fun k rx s => fframe (ea k) rx s) (fun k rx s => fframe (eb k) rx s)
                   b_out b_out lab lba junka junkb a b.
Hypothesis HL : (1 <= lab + lba)%nat.
Hypothesis Hca : (0 <= ca)%R.
Hypothesis Hcb : (0 <= cb)%R.
Hypothesis Hea : forall k, e_cap (ea k) = ca.
Hypothesis Heb : forall k, e_cap (eb k) = cb.
Hypothesis Ha0cap : p_cap (b_out (a O)) = ca.
Hypothesis Hb0cap : p_cap (b_out (b O)) = cb.
Hypothesis Hfa : b_force (a O) = RNone.
Hypothesis Hfb : b_force (b O) = RNone.
Hypothesis Hpref : (ca < cb)%R \/ (ca = cb /\ b_master (a O) = true /\ b_master (b O) = false).
Hypothesis Hva : forall k, (k <= horizon)%nat -> has_valid_data (b_out (a k)) = true.
Hypothesis Hvb : forall k, (k <= horizon)%nat -> has_valid_data (b_out (b k)) = true.
Hypothesis Hca0 : (0 <= p_count (b_out (a O)))%Z.
Hypothesis Hbound : (p_count (b_out (a O)) + Z.of_nat horizon < 2 ^ 31)%Z.
Hypothesis Hja : forall i, honest (p_count (b_out (a O))) (p_count (b_out (b O))) (junka i).
Hypothesis Hjb : forall i, honest (p_count (b_out (b O))) (p_count (b_out (a O))) (junkb i).
Hypothesis Hb0 : honest (p_count (b_out (b O))) (p_count (b_out (a O))) (b_out (b O)).
Hypothesis Hsince : (0 <= b_since (a O))%Z.
Hypothesis Hla : lba = O -> b_last (a O) = db O.
Hypothesis Hlb : lab = O -> b_last (b O) = da O.

Lemma stepA k : b_force (a k) = RNone -> 
  in_demand (a (S k)) = dem2 (ea (S k)) (a k) (rxa (S k)) /\
  b_last (a (S k)) = (if has_valid_data (rxa (S k)) then p_dem (rxa (S k)) else b_last (a k)) /\
  b_since (a (S k)) = (if eqb (dem2 (ea (S k)) (a k) (rxa (S k))) (dem1 (a k) (rxa (S k)))
                       then since1 (a k) (rxa (S k)) else 0%Z) /\
  b_lat (a (S k)) = lat1 (a k) (rxa (S k)) /\ b_force (a (S k)) = RNone /\
  b_master (a (S k)) = b_master (a k) /\ p_cap (b_out (a (S k))) = e_cap (ea (S k)) /\
  p_count (b_out (a (S k))) = u32 (p_count (b_out (a k)) + 1) /\
  p_loop (b_out (a (S k))) = p_count (rxa (S k)).
Proof. intros H. destruct (Htr k) as [E _]. rewrite E. now apply fframe_spec. Qed.

Lemma stepB k : b_force (b k) = RNone ->
  in_demand (b (S k)) = dem2 (eb (S k)) (b k) (rxb (S k)) /\
  b_last (b (S k)) = (if has_valid_data (rxb (S k)) then p_dem (rxb (S k)) else b_last (b k)) /\
  b_since (b (S k)) = (if eqb (dem2 (eb (S k)) (b k) (rxb (S k))) (dem1 (b k) (rxb (S k)))
                       then since1 (b k) (rxb (S k)) else 0%Z) /\
  b_lat (b (S k)) = lat1 (b k) (rxb (S k)) /\ b_force (b (S k)) = RNone /\
  b_master (b (S k)) = b_master (b k) /\ p_cap (b_out (b (S k))) = e_cap (eb (S k)) /\
  p_count (b_out (b (S k))) = u32 (p_count (b_out (b k)) + 1) /\
  p_loop (b_out (b (S k))) = p_count (rxb (S k)).
Proof. intros H. destruct (Htr k) as [_ E]. rewrite E. now apply fframe_spec. Qed.

Lemma consts k : b_force (a k) = RNone /\ b_force (b k) = RNone /\
  b_master (a k) = b_master (a O) /\ b_master (b k) = b_master (b O) /\
  p_cap (b_out (a k)) = ca /\ p_cap (b_out (b k)) = cb.
Proof.
  induction k as [|k (F1 & F2 & M1 & M2 & _ & _)]; [auto 8|].
  destruct (stepA k F1) as (_ & _ & _ & _ & A1 & A2 & A3 & _).
  destruct (stepB k F2) as (_ & _ & _ & _ & B1 & B2 & B3 & _).
  rewrite Hea in A3. rewrite Heb in B3. repeat split; congruence.
Qed.

Lemma rxa_real k : (lba <= k)%nat -> rxa k = b_out (b (k - lba)%nat).
Proof. intros H. unfold received. destruct (Nat.ltb_spec k lba); [lia | reflexivity]. Qed.
Lemma rxb_real k : (lab <= k)%nat -> rxb k = b_out (a (k - lab)%nat).
Proof. intros H. unfold received. destruct (Nat.ltb_spec k lab); [lia | reflexivity]. Qed.

(** B does not take the Demand role on the strength of A's real packets. *)
Lemma B_not_to_demand k : (lab <= S k)%nat -> db (S k) = true -> db k = true.
Proof.
  intros Hk. destruct (consts k) as (_ & F & _ & M & _ & C).
  destruct (stepB k F) as (-> & _). rewrite (rxb_real (S k) Hk).
  destruct (consts (S k - lab)) as (_ & _ & _ & _ & CA & _).
  unfold dem2, dem1, prefers. rewrite C, CA, Heb, M.
  assert (E1 : (cb <~ ca) = false) by (rnum; destruct (Rltb_spec cb ca); [lra | reflexivity]).
  assert (E2 : b_master (b O) && (cb ==~ ca) = false).
  { destruct Hpref as [H | (H & _ & ->)]; [|reflexivity]. rnum.
    destruct (Reqb_spec cb ca); [lra | apply andb_false_r]. }
  assert (E3 : (cb *~ moding_ratio <~ ca) = false).
  { unfold moding_ratio. rnum. match goal with |- Rltb ?x ?y = false => destruct (Rltb_spec x y) end;
    [|reflexivity]. exfalso. cbn in *. lra. }
  rewrite E1, E2, E3. cbn [orb]. rewrite !andb_false_r, !orb_false_r.
  destruct (in_demand (b k)); [reflexivity|]. cbn [andb negb].
  destruct (has_valid_data _); auto.
Qed.

Lemma B_supply_stays t : (lab <= S t)%nat -> db t = false -> forall k, (t <= k)%nat -> db k = false.
Proof.
  intros Hlt Ht k Hk. induction Hk as [|k Hk IH]; [exact Ht|].
  destruct (db (S k)) eqn:E; [|reflexivity].
  apply B_not_to_demand in E; [congruence | lia].
Qed.

(** A's measured latency is never negative before the horizon. *)
Lemma count_a_exact k : (k <= horizon)%nat ->
  p_count (b_out (a k)) = (p_count (b_out (a O)) + Z.of_nat k)%Z.
Proof.
  induction k as [|k IH]; intros Hk; [lia|].
  destruct (consts k) as (F & _). destruct (stepA k F) as (_ & _ & _ & _ & _ & _ & _ & -> & _).
  rewrite IH by lia. unfold u32. rewrite Z.mod_small by lia. lia.
Qed.

Lemma lat_a_nonneg k : (S k <= horizon)%nat -> (0 <= lat1 (a k) (rxa (S k)))%Z.
Proof.
  intros Hk. unfold lat1. rewrite count_a_exact by lia.
  assert (Hl : (0 <= p_loop (rxa (S k)) <= p_count (b_out (a O)) + Z.of_nat (S k))%Z).
  { unfold received at 1 2. destruct (Nat.ltb_spec (S k) lba) as [H|H].
    - destruct (Hjb (lba - S k)%nat). lia.
    - destruct (S k - lba)%nat as [|j] eqn:Hj; [destruct Hb0; lia|].
      destruct (consts j) as (_ & F & _). destruct (stepB j F) as (_ & _ & _ & _ & _ & _ & _ & _ & ->).
      unfold received. destruct (Nat.ltb_spec (S j) lab) as [H2|H2].
      + destruct (Hja (lab - S j)%nat). lia.
      + rewrite count_a_exact by lia. lia. }
  unfold u32. rewrite (Z.mod_small (_ + 1)) by lia.
  rewrite s32_small; lia.
Qed.

Lemma lat_a_echo k : (S k <= horizon)%nat -> (L + 1 <= S k)%nat -> lat1 (a k) (rxa (S k)) = Z.of_nat L.
Proof.
  intros Hk Hge. destruct (consts k) as (F & _).
  destruct (stepA k F) as (_ & _ & _ & <- & _).
  refine (latency_a (fun k rx s => fframe (ea k) rx s) (fun k rx s => fframe (eb k) rx s)
     b_out b_out lab lba junka junkb p_count p_loop b_lat _ _ _ a b Htr _ (S k) _ _ _); try lia.
  - intros; apply fframe_counts.
  - intros; apply fframe_counts.
  - intros; apply fframe_counts.
Qed.

(** A leaves the Demand role only on a valid rising edge of B's demand flag. *)
Lemma A_demand_step k : da k = true ->
  da (S k) = negb (has_valid_data (rxa (S k)) && p_dem (rxa (S k)) && negb (b_last (a k))) \/
  da (S k) = true.
Proof.
  intros Hd. destruct (consts k) as (F & _). destruct (stepA k F) as (-> & _).
  unfold dem2, dem1. rewrite Hd. cbn [negb andb]. rewrite andb_false_r. cbn [andb].
  destruct (has_valid_data (rxa (S k))); cbn [andb]; [|auto].
  destruct (p_dem (rxa (S k)) && negb (b_last (a k))); cbn [negb]; auto.
  destruct (_ && _); auto.
Qed.

Lemma A_edge_flips k : (S k <= horizon)%nat -> da k = true -> has_valid_data (rxa (S k)) = true ->
  p_dem (rxa (S k)) = true -> b_last (a k) = false -> da (S k) = false.
Proof.
  intros Hk Hd Hv Hp Hl. destruct (consts k) as (F & _). destruct (stepA k F) as (-> & _).
  unfold dem2, since1. assert (E : dem1 (a k) (rxa (S k)) = false)
    by (unfold dem1; rewrite Hv, Hd, Hp, Hl; reflexivity).
  rewrite E, Hd. cbn [orb eqb]. pose proof (lat_a_nonneg k Hk).
  destruct (Z.ltb_spec (lat1 (a k) (rxa (S k))) 0); [lia | reflexivity].
Qed.

Lemma B_edge_flips k : (lab <= S k)%nat -> db k = true -> has_valid_data (rxb (S k)) = true ->
  p_dem (rxb (S k)) = true -> b_last (b k) = false -> db (S k) = false.
Proof.
  intros Hk Hd Hv Hp Hl. destruct (consts k) as (_ & F & _). destruct (stepB k F) as (-> & _).
  assert (E : dem1 (b k) (rxb (S k)) = false)
    by (unfold dem1; rewrite Hv, Hd, Hp, Hl; reflexivity).
  unfold dem2. rewrite E. cbn [orb].
  rewrite (rxb_real (S k) Hk), Heb. destruct (consts (S k - lab)) as (_ & _ & _ & _ & -> & _).
  replace (cb *~ moding_ratio <~ ca) with false; [apply andb_false_r|].
  symmetry. unfold moding_ratio. rnum.
  match goal with |- Rltb ?x ?y = false => destruct (Rltb_spec x y) end; [|reflexivity].
  exfalso. cbn in *. lra.
Qed.

(** A supplies while B is seen supplying: A takes the Demand role. *)
Lemma A_takes_demand k : da k = false -> (lba <= S k)%nat -> (S k - lba <= horizon)%nat ->
  db (S k - lba) = false -> da (S k) = true.
Proof.
  intros Hd Hk Hh Hb. destruct (consts k) as (F & _ & M & _ & C & _).
  destruct (stepA k F) as (-> & _). rewrite rxa_real by exact Hk.
  unfold dem2. replace (dem1 (a k) (b_out (b (S k - lba)%nat))) with true; [reflexivity|].
  symmetry. unfold dem1. rewrite Hvb by exact Hh. rewrite Hd.
  change (p_dem (b_out (b (S k - lba)%nat))) with (db (S k - lba)). rewrite Hb. cbn [andb negb].
  replace (prefers (a k) (b_out (b (S k - lba)%nat))) with true; [reflexivity|].
  symmetry. unfold prefers. destruct (consts (S k - lba)) as (_ & _ & _ & _ & _ & CB).
  rewrite C, CB, M. rnum.
  destruct Hpref as [H | (H & -> & _)].
  - destruct (Rltb_spec ca cb); [reflexivity | lra].
  - rewrite H. destruct (Reqb_spec cb cb); [apply orb_true_r | lra].
Qed.

(** Case I: B is seen in the Supply role. *)
Lemma settle_B_supply t : (lab <= S t)%nat -> (S t <= horizon)%nat -> db t = false ->
  forall k, (t + lba + 1 <= k)%nat -> da k = true /\ db k = false.
Proof.
  intros H1 H2 Ht.
  assert (HB : forall k, (t <= k)%nat -> db k = false) by (apply B_supply_stays; assumption).
  assert (HA0 : da (t + lba + 1) = true).
  { destruct (da (t + lba)) eqn:E.
    - replace (t + lba + 1)%nat with (S (t + lba)) by lia.
      destruct (A_demand_step (t + lba) E) as [->|]; [|assumption].
      rewrite (rxa_real (S (t + lba))) by lia.
      change (p_dem (b_out (b (S (t + lba) - lba)%nat))) with (db (S (t + lba) - lba)).
      rewrite HB by lia. now rewrite andb_false_r.
    - replace (t + lba + 1)%nat with (S (t + lba)) by lia.
      apply A_takes_demand; [exact E | lia | lia | apply HB; lia]. }
  intros k Hk. split; [|apply HB; lia].
  induction Hk as [|k Hk IH]; [exact HA0|].
  destruct (A_demand_step k IH) as [->|]; [|assumption].
  rewrite (rxa_real (S k)) by lia.
  change (p_dem (b_out (b (S k - lba)%nat))) with (db (S k - lba)).
  rewrite HB by lia. now rewrite andb_false_r.
Qed.

(** B's memory of A's flag. *)
Lemma last_b k : (lab <= k)%nat -> (k - lab <= horizon)%nat -> b_last (b k) = da (k - lab).
Proof.
  intros Hk Hh. destruct k as [|k].
  - assert (lab = O) by lia. rewrite Hlb by assumption. f_equal.
  - destruct (consts k) as (_ & F & _). destruct (stepB k F) as (_ & -> & _).
    rewrite (rxb_real (S k) Hk). now rewrite Hva by exact Hh.
Qed.
Lemma last_a k : (lba <= k)%nat -> (k - lba <= horizon)%nat -> b_last (a k) = db (k - lba).
Proof.
  intros Hk Hh. destruct k as [|k].
  - assert (lba = O) by lia. rewrite Hla by assumption. f_equal.
  - destruct (consts k) as (F & _). destruct (stepA k F) as (_ & -> & _).
    rewrite (rxa_real (S k) Hk). now rewrite Hvb by exact Hh.
Qed.

(** A rising edge of A's flag puts B in the Supply role. *)
Lemma A_rise_settles s : (S s <= horizon)%nat -> da s = false -> da (S s) = true ->
  db (S s + lab) = false.
Proof.
  intros Hs H0 H1.
  destruct (db (S s + lab)) eqn:E; [|reflexivity]. exfalso.
  change (S s + lab)%nat with (S (s + lab)) in E.
  pose proof (B_not_to_demand (s + lab) ltac:(lia) E) as E0.
  rewrite (B_edge_flips (s + lab)) in E; [discriminate E | lia | exact E0 | | |].
  - rewrite rxb_real by lia. apply Hva. lia.
  - rewrite rxb_real by lia. replace (S (s + lab) - lab)%nat with (S s) by lia. exact H1.
  - rewrite last_b by lia. replace (s + lab - lab)%nat with s by lia. exact H0.
Qed.

Lemma since_a_nonneg k : (0 <= b_since (a k))%Z.
Proof.
  induction k as [|k IH]; [exact Hsince|].
  destruct (consts k) as (F & _). destruct (stepA k F) as (_ & _ & -> & _).
  unfold since1. destruct (eqb _ (dem1 _ _)); [|lia]. destruct (eqb _ _); lia.
Qed.

(** While A keeps supplying, the frames since its last flip are counted. *)
Lemma since_a_grows s : forall n, (forall k, (s <= k <= s + n)%nat -> da k = false) ->
  (Z.of_nat n <= b_since (a (s + n)))%Z.
Proof.
  induction n as [|n IH]; intros H.
  - rewrite Nat.add_0_r. pose proof (since_a_nonneg s). lia.
  - replace (s + S n)%nat with (S (s + n)) in * by lia.
    destruct (consts (s + n)) as (F & _). destruct (stepA (s + n) F) as (D & _ & -> & _).
    rewrite (H (S (s + n))) in D by lia. rewrite <- D.
    assert (D1 : dem1 (a (s + n)%nat) (rxa (S (s + n))) = false).
    { destruct (dem1 (a (s + n)%nat) (rxa (S (s + n)))) eqn:E; [|reflexivity].
      unfold dem2 in D. rewrite E in D. discriminate D. }
    unfold since1. rewrite D1, (H (s + n)%nat) by lia. cbn [eqb].
    specialize (IH ltac:(intros; apply H; lia)). lia.
Qed.

(** Case II: A supplies from some early frame and B never leaves Demand up to
    frame 3L+4. *)
Lemma settle_A_supply s : (s <= L)%nat -> da s = false ->
  (forall k, (lab <= k <= 3 * L + 4)%nat -> db k = true) ->
  forall k, (L + L <= k)%nat -> da k = false /\ db k = true.
Proof.
  intros Hs Hd HB.
  (* A cannot rise before frame 2L+4 *)
  assert (HA : forall n, (s + n <= L + L + 4)%nat -> da (s + n) = false).
  { induction n as [|n IH]; intros Hn; [now rewrite Nat.add_0_r|].
    replace (s + S n)%nat with (S (s + n)) in * by lia.
    destruct (da (S (s + n))) eqn:E; [|reflexivity]. exfalso.
    specialize (IH ltac:(lia)).
    pose proof (A_rise_settles (s + n) ltac:(unfold horizon; lia) IH E) as Hb.
    rewrite HB in Hb by lia. discriminate Hb. }
  (* so the capacitance ratio does not call for a flip *)
  assert (Hr : (ca *~ moding_ratio <~ cb) = false).
  { destruct (ca *~ moding_ratio <~ cb) eqn:E; [|reflexivity]. exfalso.
    assert (Hn : (Z.of_nat (L + L + 2 - s) <= b_since (a (L + L + 2)%nat))%Z).
    { replace (L + L + 2)%nat with (s + (L + L + 2 - s))%nat at 2 by lia.
      apply since_a_grows. intros k Hk. replace k with (s + (k - s))%nat by lia. apply HA. lia. }
    assert (D : da (S (L + L + 2)) = false).
    { replace (S (L + L + 2)) with (s + (S (L + L + 2) - s))%nat by lia. apply HA. lia. }
    assert (D0 : da (L + L + 2) = false).
    { replace (L + L + 2)%nat with (s + (L + L + 2 - s))%nat by lia. apply HA. lia. }
    destruct (consts (L + L + 2)) as (F & _). destruct (stepA (L + L + 2) F) as (D' & _).
    rewrite D in D'. unfold dem2 in D'. symmetry in D'. apply orb_false_iff in D'. destruct D' as [D1 D2].
    unfold since1 in D2. rewrite D1, D0 in D2. cbn [eqb] in D2.
    rewrite lat_a_echo in D2 by (unfold horizon; lia).
    rewrite (rxa_real (S (L + L + 2))) in D2 by lia.
    destruct (consts (S (L + L + 2) - lba)) as (_ & _ & _ & _ & _ & CB).
    rewrite CB, Hea, E in D2. rewrite andb_true_r in D2. apply Z.ltb_ge in D2. lia. }
  (* both stay *)
  assert (HH : forall k, (forall j, (s <= j <= k)%nat -> da j = false) /\
                         (forall j, (lab <= j <= k + lab)%nat -> db j = true) \/ (k < L + L)%nat).
  { induction k as [|k IH]; [destruct (Nat.eq_dec L 0) as [HL0|]; [left | right; lia]|].
    - split; [intros j Hj; replace j with (s + 0)%nat by lia; apply HA; lia | intros j Hj; apply HB; lia].
    - destruct (Nat.lt_ge_cases (S k) (L + L)) as [|Hge]; [right; assumption | left].
      destruct (Nat.eq_dec (S k) (L + L)) as [Heq|Hne].
      { rewrite Heq. split.
        - intros j Hj. replace j with (s + (j - s))%nat by lia. apply HA. lia.
        - intros j Hj. apply HB. lia. }
      destruct IH as [[I1 I2] | IH]; [|lia].
      assert (Ka : da (S k) = false).
      { destruct (consts k) as (F & _). destruct (stepA k F) as (-> & _).
        unfold dem2. rewrite (rxa_real (S k)) by lia.
        assert (D1 : dem1 (a k) (b_out (b (S k - lba)%nat)) = false).
        { unfold dem1. change (p_dem (b_out (b (S k - lba)%nat))) with (db (S k - lba)).
          rewrite I2 by lia. rewrite (I1 k) by lia. cbn [andb negb]. destruct (has_valid_data _); reflexivity. }
        rewrite D1. cbn [orb].
        destruct (consts (S k - lba)) as (_ & _ & _ & _ & _ & ->). rewrite Hea, Hr. apply andb_false_r. }
      split.
      + intros j Hj. destruct (Nat.eq_dec j (S k)) as [->|]; [exact Ka | apply I1; lia].
      + intros j Hj. destruct (Nat.eq_dec j (S k + lab)) as [->|]; [|apply I2; lia].
        replace (S k + lab)%nat with (S (k + lab)) by lia.
        destruct (consts (k + lab)) as (_ & F & _). destruct (stepB (k + lab) F) as (-> & _).
        unfold dem2. rewrite (rxb_real (S (k + lab))) by lia.
        replace (S (k + lab) - lab)%nat with (S k) by lia.
        unfold dem1. change (p_dem (b_out (a (S k)))) with (da (S k)). rewrite Ka.
        rewrite I2 by lia. cbn [andb negb]. destruct (has_valid_data _); reflexivity. }
  intros k Hk. destruct (HH k) as [[I1 I2]|]; [|lia]. split; [apply I1; lia|].
  destruct (Nat.le_gt_cases lab k); [apply I2; lia | lia].
Qed.

Theorem roles_settle : da O = false \/ db O = false ->
  exists r, forall k, (horizon <= k)%nat -> da k = r /\ db k = negb r.
Proof.
  intros Hstart.
  (* is B ever seen supplying between lab and 3L+4? *)
  assert (Hdec : (exists t, (lab <= t <= 3 * L + 4)%nat /\ db t = false) \/
                 (forall k, (lab <= k <= 3 * L + 4)%nat -> db k = true)).
  { generalize (3 * L + 4)%nat. intros m. induction m as [|m IH].
    - destruct (db O) eqn:E.
      + right. intros k Hk. replace k with O by lia. exact E.
      + destruct (Nat.eq_dec lab 0); [left; exists O; split; [lia | exact E] | right; intros; lia].
    - destruct IH as [(t & Ht & E) | IH]; [left; exists t; split; [lia | exact E]|].
      destruct (db (S m)) eqn:E.
      + right. intros k Hk. destruct (Nat.eq_dec k (S m)) as [->|]; [exact E | apply IH; lia].
      + destruct (Nat.le_gt_cases lab (S m)); [left; exists (S m); split; [lia | exact E]|].
        right. intros k Hk. lia. }
  destruct Hdec as [(t & Ht & E) | HB].
  - exists true. intros k Hk. unfold horizon in *. apply (settle_B_supply t); unfold horizon; try lia. exact E.
  - assert (HA : exists s, (s <= L)%nat /\ da s = false).
    { destruct (bool_dec (da O) true) as [E|E];
        [|exists O; split; [lia | now apply not_true_is_false]].
      destruct Hstart as [Hc|HB0]; [congruence|].
      (* B rises at some u in 1..lab *)
      assert (Hu : exists u, (S u <= lab)%nat /\ db u = false /\ db (S u) = true).
      { assert (G : forall m, (m <= lab)%nat -> db m = true -> exists u, (S u <= m)%nat /\ db u = false /\ db (S u) = true).
        { induction m as [|m IH]; intros Hm Hd; [congruence|].
          destruct (db m) eqn:Em.
          - destruct (IH ltac:(lia) eq_refl) as (u & Hu & H). exists u. split; [lia | exact H].
          - exists m. auto. }
        destruct (G lab (le_n _) (HB lab ltac:(lia))) as (u & Hu & H). exists u. auto. }
      destruct Hu as (u & Hu & H0 & H1).
      destruct (da (u + lba)) eqn:E1; [|exists (u + lba)%nat; split; [lia | exact E1]].
      exists (S (u + lba)). split; [lia|].
      apply A_edge_flips; [unfold horizon; lia | exact E1 | | |].
      - rewrite rxa_real by lia. apply Hvb. unfold horizon; lia.
      - rewrite rxa_real by lia. replace (S (u + lba) - lba)%nat with (S u) by lia. exact H1.
      - rewrite last_a by (unfold horizon; lia). replace (u + lba - lba)%nat with u by lia. exact H0. }
    destruct HA as (s & Hs & Hd). exists false. intros k Hk. unfold horizon in Hk.
    apply (settle_A_supply s Hs Hd HB). lia.
Qed.
End SETTLE.
