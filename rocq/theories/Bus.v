(** Distributed 2-way bus interfaces (fluid and electrical).
    Source: /repo/ms-utils/interop/Distributed2WayBusBase.{hh,cpp},
    Distributed2WayBusFluid.cpp, Distributed2WayBusElect.{hh,cpp}. *)
From Coq Require Import Lia List Arith Bool ZArith.
From Verif Require Import Num Loops.
Import ListNotations.
Local Open Scope Z_scope.

(** unsigned int arithmetic and the conversion of an unsigned value to int
    (two's complement, as every supported compiler does). *)
Definition u32 (x : Z) : Z := x mod 2 ^ 32.
Definition s32 (x : Z) : Z := if u32 x <? 2 ^ 31 then u32 x else u32 x - 2 ^ 32.

(** Distributed2WayBusBase.hh:102-106, 75-80. *)
Inductive role := RNone | RSupply | RDemand.
Inductive level := LInfo | LWarn | LErr | LNone.
(** Notification messages are identified by a number. *)
Definition note := (level * nat)%type.
Definition msg_demand := 1%nat.
Definition msg_supply := 2%nat.
Definition msg_fluid_in_demand := 3%nat.
Definition msg_flow_in_supply := 4%nat.

(** Distributed2WayBusBase.cpp:168-178: the vector's back is the last element. *)
Definition pop_notification (q : list note) : (list note * note) * nat :=
  match q with
  | [] => (([], (LNone, 0%nat)), 0%nat)
  | _ => ((removelast q, last q (LNone, 0%nat)), length (removelast q))
  end.

(** Distributed2WayBusBase.hh:189-194. *)
Definition push_notification (q : list note) (n : note) : list note := q ++ [n].

Section FLUID.
Context {T : Type} {N : Num T}.

(** Distributed2WayBusFluidInterfaceData (with its base classes). *)
Record packet := {
  p_count : Z;        (* mFrameCount, unsigned *)
  p_loop : Z;         (* mFrameLoopback, unsigned *)
  p_dem : bool;       (* mDemandMode *)
  p_cap : T;          (* mCapacitance *)
  p_src : T;          (* mSource *)
  p_energy : T;       (* mEnergy *)
  p_fr : list T       (* mMoleFractions then mTcMoleFractions *)
}.

(** Distributed2WayBusFluid.cpp:294-310. *)
Definition has_valid_data (p : packet) : bool :=
  if (p_count p <? 1) || (p_energy p <=~ n0) || (p_cap p <~ n0)
     || ((p_src p <~ n0) && negb (p_dem p)) then false
  else forallb (fun x => negb (x <~ n0)) (p_fr p).

(** Distributed2WayBusFluid, with mInData as [b_in].  Frames since flip and the
    loop latency are C++ ints; [b_since] is incremented without wrap (C++ int
    overflow is undefined, after 2^31 frames without a flip). *)
Record fbus := {
  b_in : packet;      (* mInData *)
  b_out : packet;     (* mOutData *)
  b_last : bool;      (* mInDataLastDemandMode *)
  b_since : Z;        (* mFramesSinceFlip *)
  b_lat : Z;          (* mLoopLatency *)
  b_force : role;     (* mForcedRole *)
  b_master : bool;    (* mIsPairMaster *)
  b_notes : list note (* mNotifications *)
}.

Definition in_demand (s : fbus) : bool := p_dem (b_out s).

Definition set_in (s : fbus) (p : packet) : fbus :=
  {| b_in := p; b_out := b_out s; b_last := b_last s; b_since := b_since s; b_lat := b_lat s;
     b_force := b_force s; b_master := b_master s; b_notes := b_notes s |}.
Definition set_out (s : fbus) (p : packet) : fbus :=
  {| b_in := b_in s; b_out := p; b_last := b_last s; b_since := b_since s; b_lat := b_lat s;
     b_force := b_force s; b_master := b_master s; b_notes := b_notes s |}.
Definition set_last (s : fbus) (l : bool) : fbus :=
  {| b_in := b_in s; b_out := b_out s; b_last := l; b_since := b_since s; b_lat := b_lat s;
     b_force := b_force s; b_master := b_master s; b_notes := b_notes s |}.
Definition set_force (s : fbus) (r : role) : fbus :=
  {| b_in := b_in s; b_out := b_out s; b_last := b_last s; b_since := b_since s; b_lat := b_lat s;
     b_force := r; b_master := b_master s; b_notes := b_notes s |}.
Definition notify (s : fbus) (n : note) : fbus :=
  {| b_in := b_in s; b_out := b_out s; b_last := b_last s; b_since := b_since s; b_lat := b_lat s;
     b_force := b_force s; b_master := b_master s; b_notes := push_notification (b_notes s) n |}.

Definition p_with_dem (p : packet) (d : bool) : packet :=
  {| p_count := p_count p; p_loop := p_loop p; p_dem := d; p_cap := p_cap p; p_src := p_src p;
     p_energy := p_energy p; p_fr := p_fr p |}.
Definition p_with_counts (p : packet) (c l : Z) : packet :=
  {| p_count := c; p_loop := l; p_dem := p_dem p; p_cap := p_cap p; p_src := p_src p;
     p_energy := p_energy p; p_fr := p_fr p |}.
Definition p_with_cap (p : packet) (c : T) : packet :=
  {| p_count := p_count p; p_loop := p_loop p; p_dem := p_dem p; p_cap := c; p_src := p_src p;
     p_energy := p_energy p; p_fr := p_fr p |}.
Definition p_with_data (p : packet) (src energy : T) (fr : list T) : packet :=
  {| p_count := p_count p; p_loop := p_loop p; p_dem := p_dem p; p_cap := p_cap p; p_src := src;
     p_energy := energy; p_fr := fr |}.

(** Distributed2WayBusBase.cpp:134-146 and Distributed2WayBusFluid.cpp:349-361
    (the mixture arrays are sized and zeroed: [nfr] fractions). *)
Definition binitialize (master : bool) (nfr : nat) (s : fbus) : fbus :=
  {| b_in := p_with_data (b_in s) (p_src (b_in s)) (p_energy (b_in s)) (repeat n0 nfr);
     b_out := p_with_dem (p_with_data (b_out s) (p_src (b_out s)) (p_energy (b_out s)) (repeat n0 nfr)) false;
     b_last := false; b_since := 0; b_lat := 0; b_force := b_force s; b_master := master;
     b_notes := b_notes s |}.

(** The constructed object (Distributed2WayBusBase.cpp:68-117, Distributed2WayBusFluid.cpp:254-262). *)
Definition packet0 : packet :=
  {| p_count := 0; p_loop := 0; p_dem := false; p_cap := n0; p_src := n0; p_energy := n0; p_fr := [] |}.
Definition constructed : fbus :=
  {| b_in := packet0; b_out := packet0; b_last := false; b_since := 0; b_lat := 0; b_force := RNone;
     b_master := false; b_notes := [] |}.

(** Distributed2WayBusBase.cpp:151-157. *)
Definition update_frame_counts (s : fbus) : fbus :=
  let c := u32 (p_count (b_out s) + 1) in
  {| b_in := b_in s;
     b_out := p_with_counts (b_out s) c (p_count (b_in s));
     b_last := b_last s;
     b_since := b_since s + 1;
     b_lat := s32 (c - p_loop (b_in s));
     b_force := b_force s; b_master := b_master s; b_notes := b_notes s |}.

Definition flip (s : fbus) (d : bool) (m : nat) : fbus :=
  {| b_in := b_in s; b_out := p_with_dem (b_out s) d; b_last := b_last s; b_since := 0;
     b_lat := b_lat s; b_force := b_force s; b_master := b_master s;
     b_notes := push_notification (b_notes s) (LInfo, m) |}.

(** Distributed2WayBusFluid.cpp:567-574, 579-586. *)
Definition flip_to_demand (s : fbus) : fbus :=
  match b_force s with RSupply => s | _ => flip s true msg_demand end.
Definition flip_to_supply (s : fbus) : fbus :=
  match b_force s with RDemand => s | _ => flip s false msg_supply end.

(** Distributed2WayBusFluid.cpp:521-544. *)
Definition flip_on_input (s : fbus) : fbus :=
  if (match b_force s with RDemand => true | _ => false end) && negb (in_demand s) then flip_to_demand s
  else if (match b_force s with RSupply => true | _ => false end) && in_demand s then flip_to_supply s
  else if has_valid_data (b_in s) then
    let s1 :=
      if p_dem (b_out s) && p_dem (b_in s) && negb (b_last s) then flip_to_supply s
      else if negb (p_dem (b_in s)) && negb (p_dem (b_out s)) then
        if (p_cap (b_out s) <~ p_cap (b_in s))
           || (b_master s && (p_cap (b_out s) ==~ p_cap (b_in s)))
        then flip_to_demand s else s
      else s in
    set_last s1 (p_dem (b_in s1))
  else s.

(** Distributed2WayBusFluid.cpp:472-479. *)
Definition process_inputs (s : fbus) : fbus := flip_on_input (update_frame_counts s).

(** Distributed2WayBusFluid.cpp:373-384, 425-436 (the arrays have the same size). *)
Definition set_fluid_state (s : fbus) (pressure energy : T) (fr : list T) : fbus :=
  if in_demand s then notify s (LWarn, msg_fluid_in_demand)
  else set_out s (p_with_data (b_out s) pressure energy fr).
Definition set_flow_state (s : fbus) (flow energy : T) (fr : list T) : fbus :=
  if negb (in_demand s) then notify s (LWarn, msg_flow_in_supply)
  else set_out s (p_with_data (b_out s) flow energy fr).

(** Distributed2WayBusFluid.cpp:400-410, 456-466; [None]: returns false, the
    argument is not written. *)
Definition get_fluid_state (s : fbus) : option (T * T * list T) :=
  if in_demand s && has_valid_data (b_in s) && negb (p_dem (b_in s))
  then Some (p_src (b_in s), p_energy (b_in s), p_fr (b_in s)) else None.
Definition get_flow_state (s : fbus) : option (T * T * list T) :=
  if negb (in_demand s) && has_valid_data (b_in s) && p_dem (b_in s)
  then Some (p_src (b_in s), p_energy (b_in s), p_fr (b_in s)) else None.

(** Distributed2WayBusFluid.cpp:314: mModingCapacitanceRatio = 1.25. *)
Definition moding_ratio : T := ndec 125 (-2).

(** Distributed2WayBusFluid.cpp:550-562. *)
Definition flip_on_capacitance (s : fbus) : fbus :=
  if (b_lat s <? b_since s) && (p_cap (b_out s) *~ moding_ratio <~ p_cap (b_in s)) then
    let s1 := flip_to_demand s in
    set_out s1 (p_with_data (b_out s1) n0 (p_energy (b_out s1)) (p_fr (b_out s1)))
  else s.

(** Distributed2WayBusFluid.cpp:593-599. *)
Definition process_outputs (cap : T) (s : fbus) : fbus :=
  let s1 := set_out s (p_with_cap (b_out s) cap) in
  if negb (in_demand s1) then flip_on_capacitance s1 else s1.

(** std::pow(x, n) for n >= 0, over exact numbers repeated multiplication. *)
Fixpoint npow (x : T) (n : nat) : T :=
  match n with O => n1 | S m => x *~ npow x m end.

(** Distributed2WayBusFluid.cpp:490-515: gain and flow-rate limit. *)
Definition demand_limit (s : fbus) (timestep pressure : T) : T * T :=
  if in_demand s && negb (p_dem (b_in s)) then
    if (neps <~ timestep) && (neps <~ p_cap (b_out s)) && (neps <~ p_cap (b_in s)) then
      let exponent := Z.min 100 (Z.max 1 (b_lat s)) in
      let lagGain := nmin n1 (ndec 15 (-1) *~ npow (ndec 75 (-2)) (Z.to_nat exponent)) in
      let csOverCd := nmin moding_ratio (nmax n1 (p_cap (b_in s) /~ p_cap (b_out s))) in
      let gain := lagGain +~ (n1 -~ lagGain) *~ (csOverCd -~ n1) *~ ndec 4 0 in
      (gain, gain *~ nabs (pressure -~ p_src (b_in s))
             /~ (timestep *~ (n1 /~ p_cap (b_out s) +~ n1 /~ p_cap (b_in s))))
    else (n0, n0)
  else (n0, n0).

(** One model frame: a packet is received into mInData, inputs are processed,
    the link writes its pressure or flow according to the role, outputs are
    processed with the frame's capacitance. *)
Record fenv := { e_cap : T; e_src : T; e_energy : T; e_fr : list T }.
Definition set_state (e : fenv) (s : fbus) : fbus :=
  if in_demand s then set_flow_state s (e_src e) (e_energy e) (e_fr e)
  else set_fluid_state s (e_src e) (e_energy e) (e_fr e).
Definition fframe (e : fenv) (rx : packet) (s : fbus) : fbus :=
  process_outputs (e_cap e) (set_state e (process_inputs (set_in s rx))).

(** Everything a link can do to its interface. *)
Inductive fop :=
| OReceive (p : packet) | OInputs | OOutputs (cap : T)
| OFluid (p e : T) (fr : list T) | OFlow (q e : T) (fr : list T).
Definition fapply (s : fbus) (o : fop) : fbus :=
  match o with
  | OReceive p => set_in s p
  | OInputs => process_inputs s
  | OOutputs c => process_outputs c s
  | OFluid p e fr => set_fluid_state s p e fr
  | OFlow q e fr => set_flow_state s q e fr
  end.
End FLUID.

Section ELECT.
Context {T : Type} {N : Num T}.

(** Distributed2WayBusElectInterfaceData (float members as numbers). *)
Record epacket := {
  q_count : Z; q_loop : Z; q_dem : bool;
  q_power : T;     (* mDemandPower *)
  q_volt : T       (* mSupplyVoltage *)
}.

(** mSupplyDatas elements: (mAvailable, mMaximumVoltage). *)
Record ebus := {
  c_in : epacket; c_out : epacket; c_since : Z; c_lat : Z; c_force : role;
  c_notes : list note; c_supplies : list (bool * T)
}.

(** Distributed2WayBusBase.cpp:151-157 through Distributed2WayBusElect.cpp:103-106. *)
Definition eprocess_inputs (s : ebus) : ebus :=
  let c := u32 (q_count (c_out s) + 1) in
  {| c_in := c_in s;
     c_out := {| q_count := c; q_loop := q_count (c_in s); q_dem := q_dem (c_out s);
                 q_power := q_power (c_out s); q_volt := q_volt (c_out s) |};
     c_since := c_since s + 1;
     c_lat := s32 (c - q_loop (c_in s));
     c_force := c_force s; c_notes := c_notes s; c_supplies := c_supplies s |}.

(** Distributed2WayBusElect.cpp:122-127. *)
Definition avail_voltage (l : list (bool * T)) : T :=
  fold_left (fun v d => if fst d && (v <~ snd d) then snd d else v) l n0.

(** The role decision of Distributed2WayBusElect.cpp:129-163: role, frames since
    flip, notification. *)
Definition edecide (s : ebus) (availV : T) : bool * Z * list note :=
  match c_force s with
  | RSupply => (false, c_since s, c_notes s)
  | RDemand => (true, c_since s, c_notes s)
  | RNone =>
      if 0 <? q_loop (c_in s) then
        if q_dem (c_out s) then
          if q_dem (c_in s) && (c_lat s <? c_since s)
          then (false, 0, push_notification (c_notes s) (LInfo, msg_supply))
          else (true, c_since s, c_notes s)
        else if availV <~ q_volt (c_in s)
             then (true, 0, push_notification (c_notes s) (LInfo, msg_demand))
             else (false, c_since s, c_notes s)
      else (q_dem (c_out s), c_since s, c_notes s)
  end.

(** Distributed2WayBusElect.cpp:119-179. *)
Definition eupdate (localV localP : T) (s : ebus) : ebus :=
  let availV := avail_voltage (c_supplies s) in
  let '(d, since, notes) := edecide s availV in
  {| c_in := c_in s;
     c_out := {| q_count := q_count (c_out s); q_loop := q_loop (c_out s); q_dem := d;
                 q_power := if d then localP else n0;
                 q_volt := if d then availV else localV |};
     c_since := since; c_lat := c_lat s; c_force := c_force s; c_notes := notes;
     c_supplies := c_supplies s |}.

(** One frame: receive, processInputs, the local supplies report, update. *)
Record eenv := { v_supplies : list (bool * T); v_volt : T; v_power : T }.
Definition eframe (e : eenv) (rx : epacket) (s : ebus) : ebus :=
  let s1 := {| c_in := rx; c_out := c_out s; c_since := c_since s; c_lat := c_lat s;
               c_force := c_force s; c_notes := c_notes s; c_supplies := v_supplies e |} in
  eupdate (v_volt e) (v_power e) (eprocess_inputs s1).

(** Distributed2WayBusElect.hh getRemoteLoad, getRemoteSupply. *)
Definition remote_load (s : ebus) : T := if q_dem (c_out s) then n0 else q_power (c_in s).
Definition remote_supply (s : ebus) : T := q_volt (c_in s).
End ELECT.
