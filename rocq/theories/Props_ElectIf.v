(** C231: the link of an electrical distributed interface. *)
From Coq Require Import Floats.
From Coq Require Import Reals Lra Lia List Arith Bool ZArith.
From Verif Require Import Num Bus ElectIf.
Import ListNotations.

Section EIF.
Context {T : Type} {N : Num T}.
Lemma update_keeps (k : seen T) d : i_src (update_if k d) = i_src d /\ i_load (update_if k d) = i_load d.
Proof. unfold update_if, set_bus. cbn. auto. Qed.
Lemma minor_one (d : dif T) mp mv v : i_src (eif_minor mp mv v d) && i_load (eif_minor mp mv v d) = false.
Proof. unfold eif_minor. destruct (demand d); cbn; [apply andb_false_r|reflexivity]. Qed.
Lemma calls_one : forall cs (s : dif T * nat), i_src (fst s) && i_load (fst s) = false -> i_src (fst (eif_calls cs s)) && i_load (fst (eif_calls cs s)) = false.
Proof.
  unfold eif_calls. induction cs as [|c cs IH]; intros s H; cbn [fold_left]; [exact H|]. apply IH. destruct c as [mp mv v|mv k|k]; cbn [eif_call fst].
  - apply minor_one.
  - unfold eif_confirm. destruct (demand _ && _); cbn [fst i_src i_load]; [apply andb_false_r|]. destruct (update_keeps k (fst s)) as [-> ->]. exact H.
  - unfold eif_flows. destruct (update_keeps k (fst s)) as [-> ->]. exact H.
Qed.
(** Whatever is received and found, the load and the source are never on together. *)
Theorem C231_one : forall fs (d : dif T), i_src d && i_load d = false -> i_src (eif_run fs d) && i_load (eif_run fs d) = false.
Proof.
  unfold eif_run. induction fs as [|f fs IH]; intros d H; cbn [fold_left]; [exact H|]. apply IH. unfold eif_frame. apply calls_one. cbn [fst]. apply minor_one.
Qed.
(** A major step: the source is on exactly in the demand role and the load in the supply role, unless
    failed; the source has the remote's voltage, the load the power the remote demands, nothing in the demand role. *)
Theorem C231_step : forall mp mv rx (k : seen T) d, let r := eif_step mp mv rx k d in
  i_src r = demand r && negb mv /\ i_load r = negb (demand r) && negb mp /\ i_vin r = q_volt rx /\
  i_pow r = (if demand r then n0 else q_power rx) /\ i_uv r = (if demand r then n0 else ndec 9 (-1) *~ k_v k).
Proof.
  intros mp mv rx k d. cbv zeta. unfold eif_step. set (d1 := mkdif _ _ _ _ _ _ _).
  assert (V : i_vin d1 = q_volt rx) by (unfold d1, remote_supply, update_if, receive, set_bus, eupdate, eprocess_inputs; cbn; destruct (edecide _ _) as [[q1 q2] q3]; reflexivity).
  assert (W : q_power (c_in (i_bus d1)) = q_power rx) by (unfold d1, update_if, receive, set_bus, eupdate, eprocess_inputs; cbn; destruct (edecide _ _) as [[q1 q2] q3]; reflexivity).
  clearbody d1. unfold eif_minor, demand. destruct (q_dem (c_out (i_bus d1))) eqn:E; cbn [i_bus i_src i_load i_vin i_pow i_uv]; rewrite ?E; cbn [negb andb]; repeat split; try exact V.
  unfold remote_load. rewrite E. exact W.
Qed.
(** A solution is rejected exactly when confirming it takes the interface from the supply to the demand
    role; then the load is off and the source on, unless failed.  Otherwise nothing is switched. *)
Theorem C231_confirm : forall mv (k : seen T) d, let '(d', rej) := eif_confirm mv k d in
  (rej = true <-> demand d = false /\ demand d' = true) /\
  (rej = true -> i_src d' = negb mv /\ i_load d' = false /\ i_pow d' = n0) /\ (rej = false -> i_src d' = i_src d /\ i_load d' = i_load d /\ i_pow d' = i_pow d).
Proof.
  intros mv k d. unfold eif_confirm. destruct (demand d) eqn:E, (demand (update_if k d)) eqn:E2; cbn [andb negb]; repeat split; intros; try discriminate; try congruence; try reflexivity; try (now apply update_keeps); intuition congruence.
Qed.
(** ** A frame rejects at most once *)
Lemma update_role (k : seen T) d : let b := i_bus d in let r := i_bus (update_if k d) in
  c_in r = c_in b /\ c_force r = c_force b /\ c_lat r = c_lat b /\
  (c_force b = RSupply -> q_dem (c_out r) = false) /\ (c_force b = RDemand -> q_dem (c_out r) = true) /\
  (c_force b = RNone -> q_dem (c_out r) = q_dem (c_out b) /\ c_since r = c_since b \/ q_dem (c_out r) = negb (q_dem (c_out b)) /\ c_since r = 0%Z /\ (q_dem (c_out b) = true -> (c_lat b < c_since b)%Z)).
Proof.
  cbv zeta. unfold update_if, set_bus, eupdate, edecide. cbn [i_bus c_in c_out c_force c_since c_lat c_supplies c_notes].
  destruct (c_force (i_bus d)) eqn:F.
  - destruct (Z.ltb_spec 0 (q_loop (c_in (i_bus d)))) as [L|L].
    + destruct (q_dem (c_out (i_bus d))) eqn:Q.
      * destruct (q_dem (c_in (i_bus d)) && (c_lat (i_bus d) <? c_since (i_bus d))%Z) eqn:W; cbn; repeat split; try discriminate; try assumption; intros _.
        -- right. apply andb_true_iff in W. destruct W as [_ W]. apply Z.ltb_lt in W. auto.
        -- left. auto.
      * destruct (avail_voltage _ <~ _); cbn; repeat split; try discriminate; try assumption; intros _; [right|left]; repeat split; discriminate.
    + cbn; repeat split; try discriminate; try assumption; intros _. left. auto.
  - cbn; repeat split; try discriminate; try assumption.
  - cbn; repeat split; try discriminate; try assumption.
Qed.
(** The state in which nothing more is rejected. *)
Definition spent (d : dif T) : Prop := demand d = true /\ (c_force (i_bus d) = RNone -> (0 <= c_lat (i_bus d))%Z /\ c_since (i_bus d) = 0%Z) /\ c_force (i_bus d) <> RSupply.
Lemma spent_update k (d : dif T) : spent d -> spent (update_if k d).
Proof.
  unfold spent, demand. intros (D & F & S0). pose proof (update_role k d) as U. cbv zeta in U. destruct U as (_ & U1 & U2 & U3 & U4 & U5). rewrite U1, U2.
  destruct (c_force (i_bus d)); [|congruence|].
  - destruct (F eq_refl) as [L S1]. destruct (U5 eq_refl) as [[A B]|(A & B & C0)]; [|specialize (C0 D); lia]. repeat split; try congruence; try lia.
  - repeat split; try discriminate. now apply U4.
Qed.
Lemma minor_bus mp mv v (d : dif T) : i_bus (eif_minor mp mv v d) = i_bus d.
Proof. unfold eif_minor. destruct (demand d); reflexivity. Qed.
Lemma spent_calls : forall cs (s : dif T * nat), spent (fst s) -> snd (eif_calls cs s) = snd s.
Proof.
  unfold eif_calls. induction cs as [|c cs IH]; intros s H; cbn [fold_left]; [reflexivity|]. destruct c as [mp mv v|mv k|k]; cbn [eif_call].
  - rewrite IH; [reflexivity|]. cbn [fst]. unfold spent, demand in *. rewrite minor_bus. exact H.
  - assert (E : eif_confirm mv k (fst s) = (update_if k (fst s), false)) by (unfold eif_confirm; rewrite (proj1 H); cbn [negb]; now rewrite andb_false_r).
    rewrite E. cbn [fst snd]. rewrite IH; [reflexivity|]. now apply spent_update.
  - rewrite IH; [reflexivity|]. now apply spent_update.
Qed.
(** Between two major steps, however often the network asks, at most one solution is rejected, if the
    interface's loop latency is not negative. *)
Theorem C231_once : forall cs (d : dif T), (0 <= c_lat (i_bus d))%Z -> (snd (eif_calls cs (d, 0%nat)) <= 1)%nat.
Proof.
  assert (G : forall cs (d : dif T), (0 <= c_lat (i_bus d))%Z -> forall n, (snd (eif_calls cs (d, n)) <= S n)%nat).
  { unfold eif_calls. induction cs as [|c cs IH]; intros d L n; cbn [fold_left]; [cbn; lia|]. destruct c as [mp mv v|mv k|k]; cbn [eif_call fst snd].
    - apply IH. now rewrite minor_bus.
    - pose proof (update_role k d) as U. cbv zeta in U. destruct U as (_ & U1 & U2 & U3 & U4 & U5).
      pose proof (C231_confirm mv k d) as CF. destruct (eif_confirm mv k d) as [d' rej] eqn:E. cbn [fst snd].
      assert (B : i_bus d' = i_bus (update_if k d)) by (unfold eif_confirm in E; destruct (demand _ && _); injection E as <- _; reflexivity).
      destruct rej; [|apply IH; rewrite B, U2; exact L].
      pose proof (spent_calls cs (d', S n)) as SC. unfold eif_calls in SC. rewrite SC; [cbn; lia|]. cbn [fst].
      destruct CF as [CF _]. destruct (proj1 CF eq_refl) as [D1 D2]. unfold spent. split; [exact D2|]. unfold demand in *. rewrite B in *. rewrite U1, U2. split.
      + intro F. destruct (U5 F) as [[A _]|(_ & A & _)]; [congruence|]. auto.
      + intro F. specialize (U3 F). congruence.
    - apply IH. pose proof (update_role k d) as U. cbv zeta in U. unfold eif_flows. destruct U as (_ & _ & U2 & _). rewrite U2. exact L. }
  intros cs d L. now apply G.
Qed.
(** A forced role is taken in the major step, and kept through the frame. *)
Theorem C231_forced : forall mp mv rx (k : seen T) d cs, c_force (i_bus d) <> RNone ->
  let r := fst (eif_calls cs (eif_step mp mv rx k d, 0%nat)) in demand r = match c_force (i_bus d) with RDemand => true | _ => false end /\ snd (eif_calls cs (eif_step mp mv rx k d, 0%nat)) = 0%nat.
Proof.
  intros mp mv rx k d cs F. cbv zeta. set (role := match c_force (i_bus d) with RDemand => true | _ => false end).
  assert (U : forall k' (x : dif T), c_force (i_bus x) = c_force (i_bus d) -> demand (update_if k' x) = role /\ c_force (i_bus (update_if k' x)) = c_force (i_bus d)).
  { intros k' x X. pose proof (update_role k' x) as U. cbv zeta in U. destruct U as (_ & U1 & _ & U3 & U4 & _). unfold demand, role. rewrite U1, X in *. destruct (c_force (i_bus d)); [congruence|rewrite U3 by reflexivity|rewrite U4 by reflexivity]; auto. }
  assert (S1 : demand (eif_step mp mv rx k d) = role /\ c_force (i_bus (eif_step mp mv rx k d)) = c_force (i_bus d)).
  { unfold eif_step, demand. rewrite !minor_bus. cbn [i_bus]. apply U. reflexivity. }
  set (d0 := eif_step mp mv rx k d) in *. clearbody d0. generalize 0%nat as n.
  assert (G : forall cs (x : dif T) n, demand x = role -> c_force (i_bus x) = c_force (i_bus d) -> demand (fst (eif_calls cs (x, n))) = role /\ snd (eif_calls cs (x, n)) = n).
  { unfold eif_calls. induction cs0 as [|c cs0 IH]; intros x n X1 X2; cbn [fold_left]; [auto|]. destruct c as [mp' mv' v'|mv' k'|k']; cbn [eif_call fst snd].
    - apply IH; unfold demand; rewrite minor_bus; assumption.
    - destruct (U k' x X2) as [A B]. unfold eif_confirm. rewrite A, X1. replace (role && negb role) with false by (destruct role; reflexivity). cbn [fst snd]. now apply IH.
    - destruct (U k' x X2) as [A B]. now apply IH. }
  intro n. apply G; apply S1.
Qed.
(** The interface is told of each supply that it is available exactly if it is enabled and its node
    answers a unit current by more than the threshold; the node's capacitance is asked for if some enabled
    supply has a voltage. *)
Theorem C231_supplies : forall (k : seen T) d i y, nth_error (k_sup k) i = Some y ->
  nth_error (c_supplies (i_bus (update_if k d))) i = Some (y_on y && (i_thr d <~ y_dv y), y_v y) /\ length (c_supplies (i_bus (update_if k d))) = length (k_sup k).
Proof.
  intros k d i y H. unfold update_if, set_bus, eupdate. destruct (edecide _ _) as [[q1 q2] q3]. cbn [i_bus c_supplies]. unfold supply_data. rewrite map_length. split; [|reflexivity].
  now rewrite nth_error_map, H.
Qed.
Theorem C231_request : forall e (l : list (sup T)), cap_request e l = true <-> exists y, In y l /\ y_on y = true /\ (e <~ y_v y) = true.
Proof.
  intros e l. unfold cap_request. rewrite existsb_exists. split; intros (y & I & H); exists y; [apply andb_true_iff in H|rewrite andb_true_iff]; tauto.
Qed.
End EIF.
Print Assumptions C231_one.
Print Assumptions C231_step.
Print Assumptions C231_confirm.
Print Assumptions C231_once.
Print Assumptions C231_forced.
Print Assumptions C231_supplies.
Print Assumptions C231_request.

(** ** Refutations *)
Definition pk (loop : Z) (dem : bool) (p v : float) : @epacket float := {| q_count := 5; q_loop := loop; q_dem := dem; q_power := p; q_volt := v |}.
Definition sees (v : float) : seen float := mkseen [mksup true v 1%float] 100%float None.
(** Refuted: after the solution is confirmed the enabled part is that of the role.  On turning to the supply
    role in the confirmation, the source stays on, without a rejection, and the load off to the next step. *)
Theorem C231_supply_refuted : exists (d : dif float) mv k, let '(d', rej) := eif_confirm mv k d in
  mv = false /\ demand d = true /\ i_src d = true /\ rej = false /\ demand d' = false /\ i_src d' = true /\ i_load d' = false.
Proof.
  exists (mkdif {| c_in := pk 4 true 50 0; c_out := pk 4 true 0 100; c_since := 10; c_lat := 1; c_force := RNone; c_notes := []; c_supplies := [] |} 0.01%float true 100%float false 0%float 0%float), false, (sees 120). vm_compute. repeat split.
Qed.
(** Refuted: the role in which a frame ends is that in which its solution was found.  It can turn to the demand
    role after the solution, in computing the flows: the load is left on. *)
Theorem C231_flows_refuted : exists (d : dif float) k, let d' := eif_flows k d in demand d = false /\ i_load d = true /\ demand d' = true /\ i_load d' = true /\ i_src d' = false.
Proof.
  exists (mkdif {| c_in := pk 4 false 50 100; c_out := pk 4 false 0 100; c_since := 10; c_lat := 1; c_force := RNone; c_notes := []; c_supplies := [] |} 0.01%float false 100%float true 50%float 90%float), (sees 80). vm_compute. repeat split.
Qed.
(** A frame with a rejection, from a state that has the premises of C231_one and C231_once. *)
Example C231_any : exists (d : dif float), i_src d && i_load d = false /\ (0 <= c_lat (i_bus (eif_step false false (pk 4 false 50 100) (sees 120) d)))%Z /\
  snd (eif_calls [CConfirm false (sees 80); CMinor false false 100%float; CConfirm false (sees 80)] (eif_step false false (pk 4 false 50 100) (sees 120) d, 0%nat)) = 1%nat.
Proof.
  exists (mkdif {| c_in := pk 4 false 50 100; c_out := pk 4 false 0 100; c_since := 10; c_lat := 1; c_force := RNone; c_notes := []; c_supplies := [] |} 0.01%float false 100%float true 50%float 90%float). vm_compute. repeat split; discriminate.
Qed.
Print Assumptions C231_supply_refuted.
Print Assumptions C231_flows_refuted.
(** Refuted: a frame rejects at most once.  If the remote echoes a frame count this side has not reached, as
    after a restart of this side, the latency is negative and the role turns each time the network asks. *)
Theorem C231_once_refuted : exists (d : dif float) rx k, q_dem rx = true /\ forall n, exists cs, snd (eif_calls cs (eif_step false false rx k d, 0%nat)) = n.
Proof.
  exists (mkdif {| c_in := pk 0 false 0 100; c_out := pk 0 false 0 100; c_since := 0; c_lat := 0; c_force := RNone; c_notes := []; c_supplies := [] |} 0.01%float false 100%float true 50%float 90%float), (pk 20 true 50 100), (sees 80).
  split; [reflexivity|]. set (x := eif_step _ _ _ _ _). vm_compute in x.
  set (cc := [CConfirm false (sees 80); CConfirm false (sees 80)]).
  set (y := fst (eif_calls cc (x, 0%nat))). vm_compute in y.
  assert (Y : forall m, eif_calls cc (y, m) = (y, S m)) by (intro m; vm_compute; reflexivity).
  assert (G : forall n m, snd (eif_calls (concat (repeat cc n)) (y, m)) = (n + m)%nat).
  { induction n as [|n IH]; intro m; [reflexivity|]. cbn [repeat concat]. unfold eif_calls in *. rewrite fold_left_app, Y, IH. lia. }
  assert (X : exists m, eif_calls cc (x, 0%nat) = (y, m) /\ (m <= 1)%nat) by (eexists; split; [vm_compute; reflexivity|lia]).
  destruct X as (m & X & M). intro n. destruct (Nat.le_gt_cases m n) as [L|L].
  - exists (cc ++ concat (repeat cc (n - m))). unfold eif_calls in *. rewrite fold_left_app, X, G. lia.
  - exists []. cbn. lia.
Qed.
Print Assumptions C231_once_refuted.
(** An accepted threshold is no less than the tolerance, so that a supply whose node does not answer is never
    available. *)
Theorem C231_threshold : forall thr (l : list (sup R)) i y, eif_valid thr = true -> nth_error l i = Some y -> (y_dv y <= 0)%R ->
  nth_error (supply_data thr l) i = Some (false, y_v y).
Proof.
  intros thr l i y V H D. unfold supply_data. rewrite nth_error_map, H. cbn [option_map]. do 2 f_equal. apply andb_false_iff. right.
  unfold eif_valid in V. cbn [nlt RNum] in *. pose proof Reps_pos. apply negb_true_iff in V. change (neps : R) with Reps in V. destruct (Rltb_spec thr Reps); [discriminate|]. destruct (Rltb_spec thr (y_dv y)); [lra|reflexivity].
Qed.
Print Assumptions C231_threshold.
