(** C218-C220: links to distributed fluid interfaces. *)
From Coq Require Import Floats.
From Coq Require Import Reals Lra Lia List Arith Bool ZArith.
From Verif Require Import Num Ord MathUtil Props_Math FluidFlow Props_FluidFlow Spec_Valve Props_Valve Bus Props_Bus Props_Detector FluidFan Props_FluidFan DistIf.
Import ListNotations.
Local Open Scope R_scope.

(** ** The volume of the node *)
Section VOLUME.
Context {T : Type} {N : Num T}.
Variables (enth tfrom : list T -> T -> T).
Notation drun := (di_run enth tfrom).
(** A frame: perhaps a role is forced, then inputs, the step of the network, and outputs. *)
Record frame := mkframe { r_force : option role; r_rx : packet (T := T); r_pot : T; r_content : fluid T; r_pot2 : T; r_flux : T; r_cap : T; r_inflow : fluid T }.
Definition events (u : frame) : list (event T) :=
  match r_force u with Some r => [EForce r] | None => [] end ++
  [EIn (r_rx u) (r_pot u); EStep (r_content u); EOut (r_pot2 u) (r_flux u) (r_cap u) (r_inflow u)].
Definition has (V : T) (s : dif T) : Prop :=
  if in_demand (d_bus s) then d_saved s = V /\ d_vol (di_edit s) = n0
  else d_saved s = n0 /\ d_vol s = V /\ d_edit s = None.

Lemma di_run_app c xs ys s : drun c (xs ++ ys) s = match drun c xs s with Some s => drun c ys s | None => None end.
Proof. revert s. induction xs as [|x xs IH]; intro s; [reflexivity|]. cbn [app di_run]. destruct (di_event enth tfrom c x s); [apply IH|reflexivity]. Qed.
Lemma inputs_volume c rx pot s s' : di_inputs tfrom c rx pot s = Some s' ->
  exists b, d_bus s' = b /\ d_vol s' = d_vol (swap_in (in_demand (d_bus s)) b s) /\ d_edit s' = d_edit (swap_in (in_demand (d_bus s)) b s) /\
  d_saved s' = d_saved (swap_in (in_demand (d_bus s)) b s).
Proof.
  unfold di_inputs. set (b := process_inputs _). intro H. exists b. unfold swap_in in *.
  destruct (in_demand (d_bus s)) eqn:D, (in_demand b) eqn:E; cbn [andb negb] in *; cbn [d_bus] in H; rewrite E in H;
  (unfold inputs_demand in H || unfold inputs_supply in H); unfold inputs_demand, inputs_supply in H; cbn [d_bus] in H;
  repeat match goal with
  | H : match ?x with _ => _ end = Some _ |- _ => destruct x; try discriminate
  | H : (let (_, _) := ?x in _) = Some _ |- _ => destruct x
  end; inversion H; subst; cbn; auto.
Qed.
Lemma outputs_demand c pot flux cap inflow s : in_demand (d_bus s) = true ->
  let s' := di_outputs enth c pot flux cap inflow s in
  in_demand (d_bus s') = true /\ d_vol s' = d_vol s /\ d_edit s' = d_edit s /\ d_saved s' = d_saved s.
Proof.
  intro D. unfold di_outputs. rewrite D. destruct (output_fluid _ _ _) as [k w]. cbv zeta. cbn [d_bus d_vol d_edit d_saved].
  rewrite andb_false_r. unfold set_flow_state. rewrite D. cbn [negb]. unfold process_outputs, in_demand in *. cbn. rewrite D. cbn. auto.
Qed.
Lemma outputs_supply c pot flux cap inflow s : in_demand (d_bus s) = false ->
  let s' := di_outputs enth c pot flux cap inflow s in
  d_vol s' = d_vol s /\ (in_demand (d_bus s') = true -> d_edit s' = Some n0 /\ d_saved s' = d_vol s) /\
  (in_demand (d_bus s') = false -> d_edit s' = d_edit s /\ d_saved s' = d_saved s).
Proof.
  intro D. unfold di_outputs. rewrite D. destruct (output_fluid _ _ _) as [k w]. cbv zeta. cbn [d_bus d_vol d_edit d_saved negb].
  rewrite andb_true_r. destruct (in_demand (process_outputs cap _)); split; auto; split; intro; auto; discriminate.
Qed.
(** While frames are complete, the node has its volume in the supply role and none in demand. *)
Theorem C218_volume : forall c V us s s', has V s -> drun c (concat (map events us)) s = Some s' -> has V s'.
Proof.
  intros c V us. induction us as [|u us IH]; intros s s' I E.
  { cbn in E. injection E as <-. exact I. }
  cbn [map concat] in E. rewrite di_run_app in E. destruct (drun c (events u) s) as [s1|] eqn:E1; [|discriminate].
  apply (IH s1); [|exact E]. clear E IH s' us.
  assert (I0 : exists s0, has V s0 /\ drun c [EIn (r_rx u) (r_pot u); EStep (r_content u); EOut (r_pot2 u) (r_flux u) (r_cap u) (r_inflow u)] s0 = Some s1).
  { unfold events in E1. destruct (r_force u) as [r|]; [|exists s; auto]. exists (di_force r s). split; [|exact E1].
    unfold has, di_force, di_edit in *. cbn. exact I. }
  clear E1 I s. destruct I0 as (s & I & E). cbn [di_run di_event] in E.
  destruct (di_inputs tfrom c (r_rx u) (r_pot u) s) as [s2|] eqn:E2; [|discriminate]. injection E as <-.
  apply inputs_volume in E2. destruct E2 as (b & B & EV & EE & ES). subst b. set (b := d_bus s2) in *.
  set (s3 := di_fill (r_content u) (di_edit s2)).
  assert (B3 : d_bus s3 = b) by reflexivity. assert (E3 : d_edit s3 = None) by reflexivity.
  assert (J : has V s3).
  { unfold has. rewrite B3. unfold s3, di_fill, di_edit. cbn [d_bus d_vol d_edit d_saved]. rewrite EV, EE, ES. unfold has, di_edit in I. cbn [d_bus d_vol d_edit d_saved] in I.
    unfold swap_in. destruct (in_demand (d_bus s)) eqn:D, (in_demand b) eqn:F; cbn [andb negb d_saved d_vol d_edit] in *.
    - exact I.
    - destruct I as (I1 & _). auto.
    - destruct I as (_ & I2 & _). auto.
    - destruct I as (I1 & I2 & I3). rewrite I1, I2, I3. auto. }
  destruct (in_demand (d_bus s3)) eqn:D3.
  - destruct (outputs_demand c (r_pot2 u) (r_flux u) (r_cap u) (r_inflow u) s3 D3) as (O1 & O2 & O3 & O4).
    unfold has in *. rewrite D3 in J. rewrite O1, O4. unfold di_edit in *. cbn [d_vol] in *. rewrite O2, O3. exact J.
  - destruct (outputs_supply c (r_pot2 u) (r_flux u) (r_cap u) (r_inflow u) s3 D3) as (O2 & O3 & O4).
    unfold has in *. rewrite D3 in J. destruct J as (J1 & J2 & J3).
    destruct (in_demand (d_bus (di_outputs enth c (r_pot2 u) (r_flux u) (r_cap u) (r_inflow u) s3))) eqn:D4.
    + destruct (O3 eq_refl) as (P1 & P2). rewrite P2, J2. split; [reflexivity|]. unfold di_edit. cbn [d_vol]. now rewrite P1.
    + destruct (O4 eq_refl) as (P1 & P2). rewrite P1, P2, O2. auto.
Qed.
End VOLUME.
(** A fresh link; its interface has not run. *)
Definition fresh {T} {N : Num T} (V : T) (f : fluid T) : dif T :=
  mkdif (constructed) V None n0 (mkmix n0 n0 [] []) (mkmix n0 n0 [] []) n0 n0 f f.
Theorem C218_fresh : forall {T} {N : Num T} (V : T) f, has V (fresh V f).
Proof. intros T N V f. unfold has, fresh. cbn. auto. Qed.

(** Floating point witnesses. *)
Definition air : fluid float := mkfluid 300%float [1%float] [].
Definition one_gas : difc := mkdc 1 0 1 0 false false.
Definition rx (count loop : Z) (dem : bool) (cap src : float) : packet (T := float) :=
  {| p_count := count; p_loop := loop; p_dem := dem; p_cap := cap; p_src := src; p_energy := 300%float; p_fr := [1%float] |}.
Definition idf (l : list float) (t : float) : float := t.
(** Without the network's steps between, the volume is lost: to demand, back to supply, to demand
    again.  From then on no frame gives it back. *)
Definition stalled : list (event float) :=
  [EIn (rx 1 0 false 1%float 100000%float) 100%float; EStep air; EOut 100%float 0%float 0%float air;
   EIn (rx 2 2 true 1%float 0%float) 100%float; EOut 100%float 0%float 0%float air;
   EIn (rx 3 3 true 1%float 0%float) 100%float; EOut 100%float 0%float 0%float air].
Theorem C218_stalled_refuted : exists s : dif float, di_run idf idf one_gas stalled (fresh 1%float air) = Some s /\
  forall us s', di_run idf idf one_gas (concat (map events us)) s = Some s' -> d_vol (di_edit s') = 0%float.
Proof.
  destruct (di_run idf idf one_gas stalled (fresh 1%float air)) as [s|] eqn:E; [|exfalso; vm_compute in E; discriminate].
  exists s. split; [reflexivity|]. intros us s' R1.
  assert (I : has 0%float s). { vm_compute in E. injection E as <-. vm_compute. auto. }
  pose proof (C218_volume idf idf one_gas 0%float us s s' I R1) as H. unfold has in H. destruct (in_demand (d_bus s')); [apply H|].
  destruct H as (_ & H1 & H2). unfold di_edit. cbn [d_vol]. now rewrite H2.
Qed.
(** Refuted: a restart keeps the volume.  The change of volume that is due is forgotten. *)
Definition restarted : list (event float) :=
  [EIn (rx 1 0 false 1%float 100000%float) 100%float; EStep air; EOut 100%float 0%float 0%float air;
   EIn (rx 2 2 true 1%float 0%float) 100%float; ERestart; EStep air].
Theorem C218_restart_refuted : exists s : dif float, di_run idf idf one_gas restarted (fresh 1%float air) = Some s /\
  in_demand (d_bus s) = false /\ d_vol s = 0%float /\ d_saved s = 0%float /\ d_edit s = None.
Proof.
  destruct (di_run idf idf one_gas restarted (fresh 1%float air)) as [s|] eqn:E; [|exfalso; vm_compute in E; discriminate].
  exists s. split; [reflexivity|]. vm_compute in E. injection E as <-. vm_compute. auto.
Qed.
Example roles_change : exists s : dif float,
  di_run idf idf one_gas [EIn (rx 1 0 false 1%float 100000%float) 100%float; EStep air; EOut 100%float 0%float 0%float air;
    EIn (rx 2 2 true 1%float 0%float) 100%float; EStep air] (fresh 1%float air) = Some s /\ in_demand (d_bus s) = false /\ d_vol s = 1%float.
Proof. eexists. split; [vm_compute; reflexivity|]. vm_compute. auto. Qed.
Print Assumptions C218_volume.
Print Assumptions C218_fresh.
Print Assumptions C218_stalled_refuted.
Print Assumptions C218_restart_refuted.
