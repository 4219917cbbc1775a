(** The link that puts an electrical distributed interface into a network.
    Source: /repo/aspects/electrical/PowerBus/GunnsElectDistributedIf.cpp on the interface of Bus.v.

    The power load and the voltage source are what the link sets of them.  Voltages and powers are numbers, not
    rounded to float.  What the link reads of the other links is an input of each call: of each supply whether it is
    enabled, its control voltage and the change of its node's potential by a unit current; the potential of the
    node; the voltage source's input power if valid. *)
From Coq Require Import List Bool ZArith.
From Verif Require Import Num Bus.
Import ListNotations.

Section EIF.
Context {T : Type} {N : Num T}.
Record sup := mksup { y_on : bool; y_v : T; y_dv : T }.
Record seen := mkseen { k_sup : list sup; k_v : T; k_pow : option T }.
(** mVoltageSource's enabled and input voltage; mPowerLoad's enabled, power and under-voltage limit. *)
Record dif := mkdif { i_bus : @ebus T; i_thr : T; i_src : bool; i_vin : T; i_load : bool; i_pow : T; i_uv : T }.
(** isInDemandRole *)
Definition demand (d : dif) : bool := q_dem (c_out (i_bus d)).
(** validate, :199-205. *)
Definition eif_valid (thr : T) : bool := negb (thr <~ neps).
(** updateSupplyData, :276-300: the supply data and whether the node's capacitance is asked for; [feps32] is
    FLT_EPSILON. *)
Definition supply_data (thr : T) (l : list sup) : list (bool * T) := map (fun y => (y_on y && (thr <~ y_dv y), y_v y)) l.
Definition cap_request (feps32 : T) (l : list sup) : bool := existsb (fun y => y_on y && (feps32 <~ y_v y)) l.
(** updateInterface, :349-361, with processIfNotifications, which empties the queue. *)
Definition set_bus (b : @ebus T) (d : dif) : dif := mkdif b (i_thr d) (i_src d) (i_vin d) (i_load d) (i_pow d) (i_uv d).
Definition update_if (k : seen) (d : dif) : dif :=
  let b := i_bus d in
  let b := {| c_in := c_in b; c_out := c_out b; c_since := c_since b; c_lat := c_lat b; c_force := c_force b; c_notes := c_notes b; c_supplies := supply_data (i_thr d) (k_sup k) |} in
  let b := eupdate (k_v k) (match k_pow k with Some p => p | None => n0 end) b in
  set_bus {| c_in := c_in b; c_out := c_out b; c_since := c_since b; c_lat := c_lat b; c_force := c_force b; c_notes := []; c_supplies := c_supplies b |} d.
(** minorStep, :245-270; [mp], [mv] are the malfunctions, [v] the potential. *)
Definition eif_minor (mp mv : bool) (v : T) (d : dif) : dif :=
  if demand d then mkdif (i_bus d) (i_thr d) (negb mv) (i_vin d) false n0 n0
  else mkdif (i_bus d) (i_thr d) false (i_vin d) (negb mp) (remote_load (i_bus d)) (ndec 9 (-1) *~ v).
(** step, :225-238, with the packet [rx] received since the last. *)
Definition receive (rx : @epacket T) (d : dif) : dif :=
  let b := i_bus d in set_bus {| c_in := rx; c_out := c_out b; c_since := c_since b; c_lat := c_lat b; c_force := c_force b; c_notes := c_notes b; c_supplies := c_supplies b |} d.
Definition eif_step (mp mv : bool) (rx : @epacket T) (k : seen) (d : dif) : dif :=
  let d := receive rx d in
  let d := update_if k (set_bus (eprocess_inputs (i_bus d)) d) in
  let d := mkdif (i_bus d) (i_thr d) (i_src d) (remote_supply (i_bus d)) (i_load d) (i_pow d) (i_uv d) in
  eif_minor mp mv (k_v k) d.
(** confirmSolutionAcceptable, :309-325: the state and whether the solution is rejected. *)
Definition eif_confirm (mv : bool) (k : seen) (d : dif) : dif * bool :=
  let prev := demand d in
  let d := update_if k d in
  if demand d && negb prev then (mkdif (i_bus d) (i_thr d) (negb mv) (i_vin d) false n0 (i_uv d), true) else (d, false).
(** computeFlows, :335-340. *)
Definition eif_flows (k : seen) (d : dif) : dif := update_if k d.
(** Calls by the network between two major steps, with the number of rejections. *)
Inductive ecall := CMinor (mp mv : bool) (v : T) | CConfirm (mv : bool) (k : seen) | CFlows (k : seen).
Definition eif_call (s : dif * nat) (c : ecall) : dif * nat :=
  match c with
  | CMinor mp mv v => (eif_minor mp mv v (fst s), snd s)
  | CConfirm mv k => let r := eif_confirm mv k (fst s) in (fst r, if snd r then S (snd s) else snd s)
  | CFlows k => (eif_flows k (fst s), snd s)
  end.
Definition eif_calls (cs : list ecall) (s : dif * nat) : dif * nat := fold_left eif_call cs s.
(** Frames: a major step and the calls after it. *)
Record eframe' := mkfr { g_mp : bool; g_mv : bool; g_rx : @epacket T; g_k : seen; g_cs : list ecall }.
Definition eif_frame (d : dif) (f : eframe') : dif := fst (eif_calls (g_cs f) (eif_step (g_mp f) (g_mv f) (g_rx f) (g_k f) d, 0)).
Definition eif_run (fs : list eframe') (d : dif) : dif := fold_left eif_frame fs d.
End EIF.
Arguments sup T : clear implicits.
Arguments seen T : clear implicits.
Arguments dif T : clear implicits.
Arguments ecall T : clear implicits.
Arguments eframe' T : clear implicits.
