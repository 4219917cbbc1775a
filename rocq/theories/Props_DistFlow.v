(** C219-C220: what passes through a distributed fluid interface. *)
From Coq Require Import Floats.
From Coq Require Import Reals Lra Lia List Arith Bool ZArith.
From Verif Require Import Num Ord MathUtil Props_Math FluidFlow Props_FluidFlow Spec_Valve Props_Valve Bus Props_Bus Props_Detector FluidFan Props_FluidFan DistIf Props_DistIf.
Import ListNotations.
Local Open Scope R_scope.

(** ** Mixtures *)
Lemma resize_length {T} {N : Num T} n (l : list T) : length (resize n l) = n.
Proof. unfold resize. rewrite app_length, firstn_length, repeat_length. lia. Qed.
Lemma resize_nth n (l : list R) i : nth i (resize n l) 0 = if (i <? n)%nat then nth i l 0 else 0.
Proof.
  unfold resize. destruct (Nat.ltb_spec i n) as [H|H].
  - destruct (Nat.lt_ge_cases i (length l)) as [L|L].
    + rewrite app_nth1 by (rewrite firstn_length; lia). rewrite <- (firstn_skipn n l) at 2. rewrite app_nth1; [reflexivity|rewrite firstn_length; lia].
    + rewrite app_nth2 by (rewrite firstn_length; lia). cbn [n0 RNum]. rewrite nth_repeat. now rewrite nth_overflow by lia.
  - apply nth_overflow. rewrite app_length, firstn_length, repeat_length. lia.
Qed.
Lemma kilo_R : (kilo_per_unit : R) = 1 / 1000.
Proof. unfold kilo_per_unit. cbn [ndec RNum]. unfold Rdec. cbn. lra. Qed.
Lemma kpa1000 : (pa_per_kpa : R) = 1000.
Proof. unfold pa_per_kpa. cbn [ndec RNum]. unfold Rdec. cbn. lra. Qed.
Lemma map_nth0 (g : R -> R) l i : g 0 = 0 -> nth i (map g l) 0 = g (nth i l 0).
Proof. intro H. rewrite <- H at 1. apply map_nth. Qed.
Lemma inputs_bin (b : fbus (T := R)) p : b_in (process_inputs (set_in b p)) = p.
Proof.
  unfold process_inputs, flip_on_input, flip_to_demand, flip_to_supply.
  repeat match goal with |- context [if ?x then _ else _] => destruct x | |- context [match ?x with RNone => _ | RSupply => _ | RDemand => _ end] => destruct x end; reflexivity.
Qed.
(** Total of a fluid, the trace compounds included. *)
Definition total (f : fluid R) : R := fold_left Rplus (f_x f) (fold_left Rplus (f_tc f) 0).

Section FLOW.
Variables (enth tfrom : list R -> R -> R).
Notation outputs := (di_outputs enth).
Notation inputs := (di_inputs tfrom).
(** What the demand side sends. *)
Lemma demand_sends c pot flux cap inflow s f : in_demand (d_bus s) = true -> demand_fluid inflow (d_content s) = f ->
  let p := b_out (d_bus (outputs c pot flux cap inflow s)) in
  p_dem p = true /\ p_src p = flux * 1000 * total f /\
  p_energy p = (if c_enth c then enth (f_x f) (f_temp f) else f_temp f) /\
  p_fr p = resize (c_bn c) (map (fun a => a / total f) (f_x f)) ++ resize (c_bt c) (map (fun a => a / total f) (f_tc f)).
Proof.
  intros D F. unfold di_outputs. rewrite D, F. unfold output_fluid. cbv zeta. cbn [d_bus]. unfold set_flow_state. rewrite D. cbn [negb].
  unfold process_outputs. unfold in_demand in *. cbn -[pa_per_kpa]. rewrite D. cbn -[pa_per_kpa]. rewrite kpa1000. split; [exact D|]. unfold total. auto.
Qed.
Lemma supply_sends c pot flux cap inflow s : in_demand (d_bus s) = false -> b_force (d_bus s) <> RSupply ->
  let s' := outputs c pot flux cap inflow s in let f := d_content s in let p := b_out (d_bus s') in
  in_demand (d_bus s') = false ->
  p_dem p = false /\ p_src p = pot * 1000 /\
  p_energy p = (if c_enth c then enth (f_x f) (f_temp f) else f_temp f) /\
  p_fr p = resize (c_bn c) (map (fun a => a / total f) (f_x f)) ++ resize (c_bt c) (map (fun a => a / total f) (f_tc f)).
Proof.
  intros D FO s' f p. subst s' p. unfold di_outputs. rewrite D. unfold output_fluid. cbv zeta. cbn [d_bus]. unfold set_fluid_state. rewrite D.
  unfold process_outputs. unfold in_demand in *. cbn -[pa_per_kpa flip_on_capacitance]. rewrite D. cbn -[pa_per_kpa flip_on_capacitance]. unfold flip_on_capacitance. destruct (_ && _) eqn:G.
  - unfold flip_to_demand. cbn -[pa_per_kpa]. destruct (b_force (d_bus s)) eqn:Fo; cbn; intro H; try discriminate. congruence.
  - cbn -[pa_per_kpa]. intro H. rewrite kpa1000. split; [exact D|]. unfold total. auto.
Qed.
Lemma from_bus_parts (c c' : difc) src e (X Y : list R) : c_bn c' = c_bn c -> c_bt c' = c_bt c ->
  from_bus c' (src, e, resize (c_bn c) X ++ resize (c_bt c) Y) =
  mkmix src e (resize (c_n c') (resize (c_bn c) X)) (resize (c_nt c') (resize (c_bt c) Y)).
Proof.
  intros B1 B2. unfold from_bus. rewrite B1. rewrite firstn_app, skipn_app, (resize_length (c_bn c) X), Nat.sub_diag.
  rewrite firstn_all2 by (rewrite resize_length; lia). rewrite skipn_all2 by (rewrite resize_length; lia). cbn [firstn skipn app]. now rewrite app_nil_r.
Qed.
(** Flow: for every compound that the receiving network knows, the molar flow it takes is the one the
    sending network gave, trace compounds too. *)
Theorem C219_flow : forall c c' pot flux cap inflow A pot' B B' f,
  c_bn c' = c_bn c -> c_bt c' = c_bt c -> length (f_x f) = c_n c -> (c_n c <= c_bn c)%nat -> length (f_tc f) = c_nt c -> (c_nt c <= c_bt c)%nat ->
  in_demand (d_bus A) = true -> demand_fluid inflow (d_content A) = f -> total f <> 0 ->
  let p := b_out (d_bus (outputs c pot flux cap inflow A)) in
  has_valid_data p = true -> inputs c' p pot' B = Some B' -> in_demand (d_bus B') = false ->
  (forall i, (i < c_n c')%nat -> d_dflux B' * nth i (f_x (d_internal B')) 0 = - (flux * nth i (f_x f) 0)) /\
  (forall i, (i < c_nt c')%nat -> d_dflux B' * nth i (f_tc (d_internal B')) 0 = - (flux * nth i (f_tc f) 0)) /\
  d_psrc B' = 0.
Proof.
  intros c c' pot flux cap inflow A pot' B B' f B1 B2 LX NX LT NT D F TO p V E D'.
  destruct (demand_sends c pot flux cap inflow A f D F) as (P1 & P2 & _ & P4). fold p in P1, P2, P4. clearbody p.
  unfold di_inputs in E. set (b := process_inputs (set_in (d_bus B) p)) in *.
  assert (BI : b_in b = p) by apply inputs_bin.
  assert (BS : d_bus (swap_in (in_demand (d_bus B)) b B) = b). { unfold swap_in. destruct (_ && _); [reflexivity|]. destruct (_ && _); reflexivity. }
  rewrite BS in E. destruct (in_demand b) eqn:DB.
  { exfalso. unfold inputs_demand in E. rewrite BS in E. destruct (get_fluid_state b) as [d|]; [destruct (input_fluid _ _ _ _) as [[? ?]|]; [|discriminate]|]; injection E as <-; cbn [d_bus] in D'; congruence. }
  unfold inputs_supply in E. rewrite BS in E. unfold get_flow_state in E. rewrite DB, BI, V, P1 in E. cbn [negb andb] in E.
  rewrite P4 in E. rewrite from_bus_parts in E by assumption. unfold input_fluid in E. cbn [m_x m_tc m_src] in E.
  set (X := resize (c_n c') _) in E. set (Y := resize (c_nt c') _) in E. set (k := sum X) in E. destruct (k <~ neps) eqn:K; [discriminate|].
  apply (f_equal (fun o => match o with Some x => x | None => B end)) in E; cbv beta iota in E; rewrite <- E; clear E. cbn [d_dflux d_internal f_x f_tc d_psrc]. apply ltN in K. pose proof neps_pos as EP. rewrite P2, kilo_R. cbn [nmul nopp ndiv n0 RNum].
  assert (ZD : (fun a : R => a / k) 0 = 0) by (unfold Rdiv; ring). assert (ZT : (fun a : R => a / total f) 0 = 0) by (unfold Rdiv; ring).
  repeat split.
  - intros i I. rewrite (map_nth0 (fun a => a / k)) by exact ZD. unfold X. rewrite !resize_nth. rewrite (proj2 (Nat.ltb_lt _ _) I).
    destruct (Nat.ltb_spec i (c_bn c)) as [J|J].
    + rewrite (map_nth0 (fun a => a / total f)) by exact ZT. field. split; [exact TO|lra].
    + rewrite (nth_overflow (f_x f)) by lia. field. lra.
  - intros i I. rewrite (map_nth0 (fun a => a / k)) by exact ZD. unfold Y. rewrite !resize_nth. rewrite (proj2 (Nat.ltb_lt _ _) I).
    destruct (Nat.ltb_spec i (c_bt c)) as [J|J].
    + rewrite (map_nth0 (fun a => a / total f)) by exact ZT. field. split; [exact TO|lra].
    + rewrite (nth_overflow (f_tc f)) by lia. field. lra.
Qed.
(** And its temperature is not the one sent: it is from the last state of the own node. *)
Theorem C219_own_energy : forall c p pot B B', has_valid_data p = true -> p_dem p = true -> inputs c p pot B = Some B' -> in_demand (d_bus B') = false ->
  f_temp (d_internal B') = if c_enth c then tfrom (f_x (d_internal B')) (m_energy (d_fluid B)) else m_energy (d_fluid B).
Proof.
  intros c p pot B B' V P1 E D'. unfold di_inputs in E. set (b := process_inputs (set_in (d_bus B) p)) in *.
  assert (BI : b_in b = p) by apply inputs_bin.
  assert (BS : d_bus (swap_in (in_demand (d_bus B)) b B) = b /\ d_fluid (swap_in (in_demand (d_bus B)) b B) = d_fluid B).
  { unfold swap_in. destruct (_ && _); [auto|]. destruct (_ && _); auto. }
  destruct BS as (BS & BF). rewrite BS in E. destruct (in_demand b) eqn:DB.
  { exfalso. unfold inputs_demand in E. rewrite BS in E. destruct (get_fluid_state b) as [d|]; [destruct (input_fluid _ _ _ _) as [[? ?]|]; [|discriminate]|]; injection E as <-; cbn [d_bus] in D'; congruence. }
  unfold inputs_supply in E. rewrite BS, BF in E. unfold get_flow_state in E. rewrite DB, BI, V, P1 in E. cbn [negb andb] in E.
  destruct (input_fluid _ _ _ _) as [[k g]|] eqn:G; [|discriminate]. injection E as <-. cbn [d_internal]. unfold input_fluid in G.
  destruct (_ <~ _); [discriminate|]. injection G as _ <-. reflexivity.
Qed.
(** Pressure: the demand side has the supply side's pressure, mixture and temperature. *)
Theorem C219_pressure : forall c pot flux cap inflow A pot' B B',
  let f := d_content A in let A' := outputs c pot flux cap inflow A in
  length (f_x f) = c_n c -> c_n c = c_bn c -> length (f_tc f) = c_nt c -> c_nt c = c_bt c ->
  in_demand (d_bus A) = false -> b_force (d_bus A) <> RSupply -> in_demand (d_bus A') = false -> fold_left Rplus (f_x f) 0 = 1 -> total f <> 0 ->
  let p := b_out (d_bus A') in
  has_valid_data p = true -> inputs c p pot' B = Some B' -> in_demand (d_bus B') = true ->
  d_psrc B' = pot /\ d_dflux B' = 0 /\ f_x (d_content B') = f_x f /\ f_tc (d_content B') = f_tc f /\
  f_temp (d_content B') = if c_enth c then tfrom (f_x f) (enth (f_x f) (f_temp f)) else f_temp f.
Proof.
  intros c pot flux cap inflow A pot' B B' f A' LX NX LT NT D FO DA S1 TO p V E D'.
  destruct (supply_sends c pot flux cap inflow A D FO DA) as (P1 & P2 & P3 & P4). fold A' f in P1, P2, P3, P4. fold p in P1, P2, P3, P4. clearbody p.
  unfold di_inputs in E. set (b := process_inputs (set_in (d_bus B) p)) in *.
  assert (BI : b_in b = p) by apply inputs_bin.
  assert (BS : d_bus (swap_in (in_demand (d_bus B)) b B) = b). { unfold swap_in. destruct (_ && _); [reflexivity|]. destruct (_ && _); reflexivity. }
  rewrite BS in E. destruct (in_demand b) eqn:DB.
  2:{ exfalso. unfold inputs_supply in E. rewrite BS in E. destruct (get_flow_state b) as [d|]; [destruct (input_fluid _ _ _ _) as [[? ?]|]; [|discriminate]|]; injection E as <-; cbn [d_bus] in D'; congruence. }
  unfold inputs_demand in E. rewrite BS in E. unfold get_fluid_state in E. rewrite DB, BI, V, P1 in E. cbn [negb andb] in E.
  rewrite P4, from_bus_parts, P2, P3 in E by reflexivity.
  assert (RS : forall n (l : list R), length l = n -> resize n l = l).
  { intros n l L. unfold resize. rewrite firstn_all2 by lia. replace (n - length l)%nat with 0%nat by lia. cbn [repeat]. now rewrite app_nil_r. }
  rewrite <- NX, <- NT, !(RS (c_n c)), !(RS (c_nt c)) in E by (rewrite ?resize_length, ?map_length; auto).
  unfold input_fluid in E. cbn [m_x m_tc m_src m_energy] in E. set (k := sum _) in E. destruct (k <~ neps) eqn:K; [discriminate|].
  assert (SM : forall (l : list R) a z, fold_left nadd (map (fun x => x / a) l) (z / a) = fold_left Rplus l z / a).
  { induction l as [|y l IH]; intros a z; [reflexivity|]. cbn [map fold_left nadd RNum]. rewrite <- IH. f_equal. unfold Rdiv. ring. }
  assert (KV : k = 1 / total f). { rewrite <- S1, <- SM. unfold k, sum. change (@ndiv R RNum) with Rdiv. f_equal. cbn [n0 RNum]. unfold Rdiv. ring. }
  assert (ID : forall l : list R, map (fun a => a / k) (map (fun a => a / total f) l) = l).
  { intro l. rewrite map_map. transitivity (map (fun a : R => a) l); [|apply map_id]. apply map_ext. intro a. rewrite KV. field. exact TO. }
  apply (f_equal (fun o => match o with Some x => x | None => B end)) in E; cbv beta iota in E; rewrite <- E; clear E. cbn [d_psrc d_dflux d_content f_x f_tc f_temp]. change (@ndiv R RNum) with Rdiv. rewrite !ID, kilo_R. cbn [nmul n0 RNum]. split; [field|]. do 3 (split; [reflexivity|]). destruct (c_enth c); reflexivity.
Qed.
End FLOW.
(** Refuted: the flow has the temperature that was sent. *)
Definition cold : fluid float := mkfluid 200%float [1%float] [].
Definition paired : option (dif float) :=
  match di_run idf idf one_gas [EIn (rx 1 0 false 1%float 100000%float) 100%float; EStep cold] (fresh 1%float cold),
        di_run idf idf one_gas [EOut 100%float 0%float 1%float air] (fresh 1%float air) with
  | Some a, Some b => di_run idf idf one_gas [EIn (b_out (d_bus (di_outputs idf one_gas 90%float 1%float 0%float cold a))) 100%float] b
  | _, _ => None
  end.
Theorem C219_temperature_refuted : exists s, paired = Some s /\ in_demand (d_bus s) = false /\ d_dflux s = (-1)%float /\ p_energy (b_in (d_bus s)) = 200%float /\ f_temp (d_internal s) = 300%float.
Proof. eexists. split; [vm_compute; reflexivity|]. vm_compute. auto. Qed.
(** Refuted: a supply side always sends its pressure.  Forced to supply a larger network, it sends zero. *)
Theorem C219_forced_refuted : exists s, di_run idf idf one_gas
  [EForce RSupply; EIn (rx 1 1 false 1%float 100000%float) 100%float; EStep air; EOut 100%float 0%float (0.5)%float air] (fresh 1%float air) = Some s /\
  in_demand (d_bus s) = false /\ p_src (b_out (d_bus s)) = 0%float /\ has_valid_data (b_out (d_bus s)) = true.
Proof. eexists. split; [vm_compute; reflexivity|]. vm_compute. auto. Qed.
Print Assumptions C219_flow.
Print Assumptions C219_own_energy.
Print Assumptions C219_pressure.
Print Assumptions C219_temperature_refuted.
Print Assumptions C219_forced_refuted.
