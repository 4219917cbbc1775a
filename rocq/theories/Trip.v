(** Electrical trip logic and switches.
    Source: /repo/aspects/electrical/TripLogic/GunnsTripLogic.{hh,cpp},
    /repo/aspects/electrical/Switch/GunnsElectSwitchUtil.{hh,cpp},
    /repo/aspects/electrical/Switch/GunnsElectSwitchUtil2.{hh,cpp}. *)
From Coq Require Import Lia List Arith Bool ZArith.
From Verif Require Import Num.
Import ListNotations.

(** GunnsBasicLink.hh:150-154. *)
Inductive result := REJECT | CONFIRM | DELAY.

Section TRIP.
Context {T : Type} {N : Num T}.

(** Which derived class: GunnsTripGreaterThan or GunnsTripLessThan. *)
Inductive side := GreaterThan | LessThan.

(** GunnsTripLogic members; the limit is a C++ float. *)
Record trip := {
  t_inh : bool;     (* mMalfInhibitTrip *)
  t_force : bool;   (* mMalfForceTrip *)
  t_limit : T;      (* mLimit *)
  t_prio : Z;       (* mPriority, unsigned *)
  t_trip : bool     (* mIsTripped *)
}.

Definition t_with (t : trip) (b : bool) : trip :=
  {| t_inh := t_inh t; t_force := t_force t; t_limit := t_limit t; t_prio := t_prio t; t_trip := b |}.

(** GunnsTripLogic.hh:154-157. *)
Definition reset_trip (t : trip) : trip := t_with t false.
(** GunnsTripLogic.hh:164-167. *)
Definition set_limit (t : trip) (l : T) : trip :=
  {| t_inh := t_inh t; t_force := t_force t; t_limit := l; t_prio := t_prio t; t_trip := t_trip t |}.
(** GunnsTripLogic.cpp:43-51. *)
Definition trip_init (limit : T) (prio : Z) (b : bool) : trip :=
  {| t_inh := false; t_force := false; t_limit := limit; t_prio := prio; t_trip := b |}.

(** GunnsTripLogic.hh:186-189, 198-201. *)
Definition is_trip_condition (d : side) (t : trip) (param : T) : bool :=
  match d with GreaterThan => t_limit t <~ param | LessThan => param <~ t_limit t end.

(** static_cast<unsigned int>(int). *)
Definition to_unsigned (x : Z) : Z := Z.modulo x (2 ^ 32).

(** GunnsTripLogic.cpp:70-100: object, result, just tripped. *)
Definition check_for_trip (d : side) (t : trip) (r : result) (param : T) (step : Z)
  : trip * result * bool :=
  let t := if t_inh t then reset_trip t else t in
  if negb (t_trip t || t_inh t || (n0 ==~ t_limit t) || (t_prio t <? 1)%Z) then
    if t_force t || is_trip_condition d t param then
      if t_force t || (to_unsigned step =? t_prio t)%Z then (t_with t true, REJECT, true)
      else match r with REJECT => (t, r, false) | _ => (t, DELAY, false) end
    else (t, r, false)
  else (t, r, false).

(** Everything that happens to a trip object. *)
Inductive tevent :=
| TCheck (r : result) (param : T) (step : Z)
| TReset
| TMalf (inhibit force : bool)
| TLimit (l : T).
Definition tapply (d : side) (t : trip) (e : tevent) : trip :=
  match e with
  | TCheck r p s => fst (fst (check_for_trip d t r p s))
  | TReset => reset_trip t
  | TMalf i f => {| t_inh := i; t_force := f; t_limit := t_limit t; t_prio := t_prio t; t_trip := t_trip t |}
  | TLimit l => set_limit t l
  end.
(** What the event reports: only a check reports a fresh trip. *)
Definition treport (d : side) (t : trip) (e : tevent) : bool :=
  match e with TCheck r p s => snd (check_for_trip d t r p s) | _ => false end.
Definition trun (d : side) (t : trip) (es : list tevent) : trip := fold_left (tapply d) es t.
Fixpoint treports (d : side) (t : trip) (es : list tevent) : list bool :=
  match es with [] => [] | e :: es => treport d t e :: treports d (tapply d t e) es end.
End TRIP.

Section SWITCH.
Context {T : Type} {N : Num T}.

(** GunnsElectSwitchUtil members (the display enumeration, names and card
    positions are left out; the voltage and power outputs do not feed back). *)
Record sw := {
  s_fclosed : bool;   (* mMalfFailClosed *)
  s_fopen : bool;     (* mMalfFailOpen *)
  s_fres : bool;      (* mMalfFailResistance *)
  s_fpct : T;         (* mMalfFailResistPercent *)
  s_mpos : option T;  (* mMalfPosTripSetpointFail and its value *)
  s_mneg : option T;  (* mMalfNegTripSetpointFail and its value *)
  s_ign : bool;       (* mMalfIgnoreCurrentTrip *)
  s_cur : T;          (* mCurrentActual *)
  s_sens : T;         (* mCurrentSensed *)
  s_volt : T;         (* mVoltageIn *)
  s_power : T;        (* mPowerDissipation *)
  s_cmd : bool;       (* mSwitchCommandedClosed *)
  s_closed : bool;    (* mSwitchIsClosed *)
  s_pos : bool;       (* mPosTrip *)
  s_neg : bool;       (* mNegTrip *)
  s_ext : bool;       (* mExternalTrip *)
  s_wait : bool;      (* mWaitingToTrip *)
  s_just : bool;      (* mJustTripped *)
  s_prio : Z;         (* mTripPriority *)
  s_reset : bool;     (* mTripReset *)
  s_dres : T;         (* mDefaultSwitchResistance *)
  s_ares : T;         (* mActiveSwitchResistance *)
  s_prot : bool;      (* mOverCurrentProtection *)
  s_dpos : T; s_apos : T;  (* mDefaultPosTripLimit, mActivePosTripLimit *)
  s_dneg : T; s_aneg : T   (* mDefaultNegTripLimit, mActiveNegTripLimit *)
}.

(** GunnsElectSwitchUtil.hh:335-338. *)
Definition s_tripped (s : sw) : bool := s_pos s || s_neg s || s_ext s.

(** GunnsElectSwitchUtil.cpp:21: 1.0E15. *)
Definition conductance_limit : T := ndec 1 15.

(** GunnsElectSwitchUtil.cpp:380-454. *)
Definition update_state (supply : bool) (s : sw) : sw :=
  let dres := if s_dres s <=~ n0 then n1 /~ conductance_limit else s_dres s in
  let pct := if s_fres s && (n1 <~ s_fpct s) then s_fpct s /~ ndec 100 0 else s_fpct s in
  let closed1 := if negb (s_tripped s) && negb (s_wait s) && supply then s_cmd s else s_closed s in
  let closed2 := if supply then (if s_fclosed s then true else if s_fopen s then false else closed1)
                 else false in
  let cmd := if supply then s_cmd s else false in
  let reset1 := if supply then s_reset s else true in
  let reset2 := if s_tripped s && negb cmd then true else reset1 in
  {| s_fclosed := s_fclosed s; s_fopen := s_fopen s; s_fres := s_fres s; s_fpct := pct;
     s_mpos := s_mpos s; s_mneg := s_mneg s; s_ign := s_ign s;
     s_cur := s_cur s; s_sens := s_sens s; s_volt := s_volt s; s_power := s_power s;
     s_cmd := cmd; s_closed := closed2;
     s_pos := if reset2 then false else s_pos s;
     s_neg := if reset2 then false else s_neg s;
     s_ext := if reset2 then false else s_ext s;
     s_wait := if reset2 then false else s_wait s;
     s_just := s_just s; s_prio := s_prio s; s_reset := false;
     s_dres := dres;
     s_ares := if s_fres s then dres *~ pct else dres;
     s_prot := if s_ign s then false else s_prot s;
     s_dpos := s_dpos s; s_apos := match s_mpos s with Some v => v | None => s_dpos s end;
     s_dneg := s_dneg s; s_aneg := match s_mneg s with Some v => v | None => s_dneg s end |}.

(** GunnsElectSwitchUtil.hh:300-310. *)
Definition conductance (s : sw) : T :=
  if s_closed s then (if n0 <~ s_ares s then n1 /~ s_ares s else conductance_limit) else n0.

(** The fields updateSwitchFlow writes. *)
Definition flow_with (s : sw) (cur sens volt power : T) (closed pos neg wait just : bool) : sw :=
  {| s_fclosed := s_fclosed s; s_fopen := s_fopen s; s_fres := s_fres s; s_fpct := s_fpct s;
     s_mpos := s_mpos s; s_mneg := s_mneg s; s_ign := s_ign s;
     s_cur := cur; s_sens := sens; s_volt := volt; s_power := power;
     s_cmd := s_cmd s; s_closed := closed; s_pos := pos; s_neg := neg; s_ext := s_ext s;
     s_wait := wait; s_just := just; s_prio := s_prio s; s_reset := s_reset s;
     s_dres := s_dres s; s_ares := s_ares s; s_prot := s_prot s;
     s_dpos := s_dpos s; s_apos := s_apos s; s_dneg := s_dneg s; s_aneg := s_aneg s |}.

(** GunnsElectSwitchUtil.cpp:501-584. *)
Definition update_flow (actual sensed volt : T) (step : Z) (minor : bool) (s : sw) : sw :=
  let start := s_tripped s in
  let cur := if s_closed s then actual else n0 in
  let sens := if s_closed s then sensed else n0 in
  let s0 := flow_with s cur sens volt (s_power s) (s_closed s) (s_pos s) (s_neg s) false (s_just s) in
  let s1 :=
    if negb (s_fclosed s0) then
      let sp :=
        if s_prot s0 then
          let sa :=
            if s_apos s0 <~ s_sens s0 then
              if (s_prio s0 <=? step)%Z
              then flow_with s0 n0 (s_sens s0) volt (s_power s0) false true (s_neg s0) false (s_just s0)
              else flow_with s0 (s_cur s0) (s_sens s0) volt (s_power s0) (s_closed s0) false (s_neg s0) true (s_just s0)
            else s0 in
          if s_sens sa <~ s_aneg sa then
            if (s_prio sa <=? step)%Z
            then flow_with sa n0 (s_sens sa) volt (s_power sa) false (s_pos sa) true false (s_just sa)
            else flow_with sa (s_cur sa) (s_sens sa) volt (s_power sa) (s_closed sa) (s_pos sa) false true (s_just sa)
          else sa
        else s0 in
      if s_ext sp && s_closed sp
      then flow_with sp n0 (s_sens sp) volt (s_power sp) false (s_pos sp) (s_neg sp) false (s_just sp)
      else sp
    else s0 in
  let just := if minor then s_just s1 else s_tripped s1 && negb start in
  let g := conductance s1 in
  let power := if n0 <~ g then nabs (s_cur s1 *~ s_cur s1) /~ g else n0 in
  flow_with s1 (s_cur s1) (s_sens s1) volt power (s_closed s1) (s_pos s1) (s_neg s1) (s_wait s1) just.

(** The setters: GunnsElectSwitchUtil.cpp:589-685 and the public malfunction flags. *)
Inductive sevent :=
| SState (supply : bool)
| SFlow (actual sensed volt : T) (step : Z) (minor : bool)
| SCommand (closed : bool)
| SReset
| SExternal (b : bool)
| SLimits (pos neg : T)
| SMalf (fclosed fopen fres : bool) (pct : T) (mpos mneg : option T) (ign : bool)
| SProtect (b : bool).   (* the signal aspect writes mOverCurrentProtection *)

Definition sapply (s : sw) (e : sevent) : sw :=
  match e with
  | SState p => update_state p s
  | SFlow a b v k m => update_flow a b v k m s
  | SCommand c =>
      {| s_fclosed := s_fclosed s; s_fopen := s_fopen s; s_fres := s_fres s; s_fpct := s_fpct s;
         s_mpos := s_mpos s; s_mneg := s_mneg s; s_ign := s_ign s;
         s_cur := s_cur s; s_sens := s_sens s; s_volt := s_volt s; s_power := s_power s;
         s_cmd := c; s_closed := s_closed s; s_pos := s_pos s; s_neg := s_neg s; s_ext := s_ext s;
         s_wait := s_wait s; s_just := s_just s; s_prio := s_prio s; s_reset := s_reset s;
         s_dres := s_dres s; s_ares := s_ares s; s_prot := s_prot s;
         s_dpos := s_dpos s; s_apos := s_apos s; s_dneg := s_dneg s; s_aneg := s_aneg s |}
  | SReset =>
      {| s_fclosed := s_fclosed s; s_fopen := s_fopen s; s_fres := s_fres s; s_fpct := s_fpct s;
         s_mpos := s_mpos s; s_mneg := s_mneg s; s_ign := s_ign s;
         s_cur := s_cur s; s_sens := s_sens s; s_volt := s_volt s; s_power := s_power s;
         s_cmd := s_cmd s; s_closed := s_closed s; s_pos := s_pos s; s_neg := s_neg s; s_ext := s_ext s;
         s_wait := s_wait s; s_just := s_just s; s_prio := s_prio s; s_reset := true;
         s_dres := s_dres s; s_ares := s_ares s; s_prot := s_prot s;
         s_dpos := s_dpos s; s_apos := s_apos s; s_dneg := s_dneg s; s_aneg := s_aneg s |}
  | SExternal b =>
      {| s_fclosed := s_fclosed s; s_fopen := s_fopen s; s_fres := s_fres s; s_fpct := s_fpct s;
         s_mpos := s_mpos s; s_mneg := s_mneg s; s_ign := s_ign s;
         s_cur := s_cur s; s_sens := s_sens s; s_volt := s_volt s; s_power := s_power s;
         s_cmd := s_cmd s; s_closed := s_closed s; s_pos := s_pos s; s_neg := s_neg s; s_ext := b;
         s_wait := s_wait s; s_just := s_just s; s_prio := s_prio s; s_reset := s_reset s;
         s_dres := s_dres s; s_ares := s_ares s; s_prot := s_prot s;
         s_dpos := s_dpos s; s_apos := s_apos s; s_dneg := s_dneg s; s_aneg := s_aneg s |}
  | SLimits p n =>
      {| s_fclosed := s_fclosed s; s_fopen := s_fopen s; s_fres := s_fres s; s_fpct := s_fpct s;
         s_mpos := s_mpos s; s_mneg := s_mneg s; s_ign := s_ign s;
         s_cur := s_cur s; s_sens := s_sens s; s_volt := s_volt s; s_power := s_power s;
         s_cmd := s_cmd s; s_closed := s_closed s; s_pos := s_pos s; s_neg := s_neg s; s_ext := s_ext s;
         s_wait := s_wait s; s_just := s_just s; s_prio := s_prio s; s_reset := s_reset s;
         s_dres := s_dres s; s_ares := s_ares s; s_prot := s_prot s;
         s_dpos := p; s_apos := s_apos s; s_dneg := n; s_aneg := s_aneg s |}
  | SMalf fc fo fr pct mp mn ig =>
      {| s_fclosed := fc; s_fopen := fo; s_fres := fr; s_fpct := pct;
         s_mpos := mp; s_mneg := mn; s_ign := ig;
         s_cur := s_cur s; s_sens := s_sens s; s_volt := s_volt s; s_power := s_power s;
         s_cmd := s_cmd s; s_closed := s_closed s; s_pos := s_pos s; s_neg := s_neg s; s_ext := s_ext s;
         s_wait := s_wait s; s_just := s_just s; s_prio := s_prio s; s_reset := s_reset s;
         s_dres := s_dres s; s_ares := s_ares s; s_prot := s_prot s;
         s_dpos := s_dpos s; s_apos := s_apos s; s_dneg := s_dneg s; s_aneg := s_aneg s |}
  | SProtect b =>
      {| s_fclosed := s_fclosed s; s_fopen := s_fopen s; s_fres := s_fres s; s_fpct := s_fpct s;
         s_mpos := s_mpos s; s_mneg := s_mneg s; s_ign := s_ign s;
         s_cur := s_cur s; s_sens := s_sens s; s_volt := s_volt s; s_power := s_power s;
         s_cmd := s_cmd s; s_closed := s_closed s; s_pos := s_pos s; s_neg := s_neg s; s_ext := s_ext s;
         s_wait := s_wait s; s_just := s_just s; s_prio := s_prio s; s_reset := s_reset s;
         s_dres := s_dres s; s_ares := s_ares s; s_prot := b;
         s_dpos := s_dpos s; s_apos := s_apos s; s_dneg := s_dneg s; s_aneg := s_aneg s |}
  end.

(** GunnsElectSwitchUtil.cpp:296-369 for accepted data, on the constructed object
    (233-276); [None]: TsInitializationException. *)
Definition sw_init (resist : T) (protect twoport : bool) (port prio : Z) (closed : bool) (pos neg : T)
  : option sw :=
  if n0 <~ resist then
    if (if twoport then (port =? 0)%Z else (0 <? port)%Z) then None
    else if (prio <? 1)%Z then None
    else if negb twoport && (1 <? prio)%Z then None
    else if pos <~ n0 then None
    else if n0 <~ neg then None
    else Some
      {| s_fclosed := false; s_fopen := false; s_fres := false; s_fpct := ndec 100 0;
         s_mpos := None; s_mneg := None; s_ign := false;
         s_cur := n0; s_sens := n0; s_volt := n0; s_power := n0;
         s_cmd := closed; s_closed := closed; s_pos := false; s_neg := false; s_ext := false;
         s_wait := false; s_just := false; s_prio := prio; s_reset := false;
         s_dres := resist; s_ares := resist; s_prot := protect;
         s_dpos := pos; s_apos := pos; s_dneg := neg; s_aneg := neg |}
  else None.
End SWITCH.

Section SWITCH2.
Context {T : Type} {N : Num T}.
(** static_cast<float> of a double. *)
Variable tofloat : T -> T.

(** GunnsElectSwitchUtil2 members. *)
Record sw2 := {
  w_fclosed : bool; w_fopen : bool;
  w_res : T;
  w_pos : bool;         (* mPosition *)
  w_cmd : bool;         (* mPositionCommand *)
  w_rst : bool;         (* mResetTripsCommand *)
  w_uv : trip (T := T); (* mInputUnderVoltageTrip *)
  w_uvr : trip (T := T);
  w_ov : trip (T := T);
  w_ovr : trip (T := T);
  w_pc : trip (T := T); (* mPosOverCurrentTrip *)
  w_nc : trip (T := T);
  w_wait : bool; w_just : bool
}.

(** GunnsElectSwitchUtil2.hh:275-279. *)
Definition w_tripped (s : sw2) : bool :=
  t_trip (w_uv s) || t_trip (w_ov s) || t_trip (w_pc s) || t_trip (w_nc s).

(** FLT_EPSILON = 2^-23. *)
Definition flt_epsilon : T := neps *~ ndec 536870912 0.

(** GunnsElectSwitchUtil2.cpp:250-263. *)
Definition apply_constraints (s : sw2) : sw2 :=
  {| w_fclosed := w_fclosed s; w_fopen := w_fopen s;
     w_res := if w_res s <~ flt_epsilon then flt_epsilon else w_res s;
     w_pos := w_pos s; w_cmd := w_cmd s; w_rst := w_rst s;
     w_uv := w_uv s;
     w_uvr := if t_limit (w_uvr s) <~ t_limit (w_uv s) then set_limit (w_uvr s) (t_limit (w_uv s)) else w_uvr s;
     w_ov := w_ov s;
     w_ovr := if t_limit (w_ov s) <~ t_limit (w_ovr s) then set_limit (w_ovr s) (t_limit (w_ov s)) else w_ovr s;
     w_pc := w_pc s; w_nc := w_nc s; w_wait := w_wait s; w_just := w_just s |}.

(** GunnsElectSwitchUtil2.cpp:398-408. *)
Definition reset_trips (s : sw2) : sw2 :=
  {| w_fclosed := w_fclosed s; w_fopen := w_fopen s; w_res := w_res s; w_pos := w_pos s;
     w_cmd := w_cmd s; w_rst := w_rst s;
     w_uv := reset_trip (w_uv s); w_uvr := reset_trip (w_uvr s);
     w_ov := reset_trip (w_ov s); w_ovr := reset_trip (w_ovr s);
     w_pc := reset_trip (w_pc s); w_nc := reset_trip (w_nc s);
     w_wait := false; w_just := false |}.

Definition w_with_pos (s : sw2) (p : bool) : sw2 :=
  {| w_fclosed := w_fclosed s; w_fopen := w_fopen s; w_res := w_res s; w_pos := p;
     w_cmd := w_cmd s; w_rst := w_rst s; w_uv := w_uv s; w_uvr := w_uvr s; w_ov := w_ov s;
     w_ovr := w_ovr s; w_pc := w_pc s; w_nc := w_nc s; w_wait := w_wait s; w_just := w_just s |}.
Definition w_with_cmd (s : sw2) (cmd rst : bool) : sw2 :=
  {| w_fclosed := w_fclosed s; w_fopen := w_fopen s; w_res := w_res s; w_pos := w_pos s;
     w_cmd := cmd; w_rst := rst; w_uv := w_uv s; w_uvr := w_uvr s; w_ov := w_ov s;
     w_ovr := w_ovr s; w_pc := w_pc s; w_nc := w_nc s; w_wait := w_wait s; w_just := w_just s |}.
Definition w_with_trips (s : sw2) (uv uvr ov ovr pc nc : trip) : sw2 :=
  {| w_fclosed := w_fclosed s; w_fopen := w_fopen s; w_res := w_res s; w_pos := w_pos s;
     w_cmd := w_cmd s; w_rst := w_rst s; w_uv := uv; w_uvr := uvr; w_ov := ov;
     w_ovr := ovr; w_pc := pc; w_nc := nc; w_wait := w_wait s; w_just := w_just s |}.
Definition w_with_flags (s : sw2) (wait just : bool) : sw2 :=
  {| w_fclosed := w_fclosed s; w_fopen := w_fopen s; w_res := w_res s; w_pos := w_pos s;
     w_cmd := w_cmd s; w_rst := w_rst s; w_uv := w_uv s; w_uvr := w_uvr s; w_ov := w_ov s;
     w_ovr := w_ovr s; w_pc := w_pc s; w_nc := w_nc s; w_wait := wait; w_just := just |}.

(** GunnsElectSwitchUtil2.cpp:270-293. *)
Definition w_update_state (s : sw2) : sw2 :=
  let s := apply_constraints s in
  let s := if w_tripped s && negb (w_cmd s) then reset_trips s else s in
  let s := if w_rst s then w_with_cmd (reset_trips s) (w_cmd s) false else s in
  if w_fclosed s then w_with_pos s true
  else if w_fopen s then w_with_pos s false
  else if negb (w_tripped s || w_wait s) then w_with_pos s (w_cmd s) else s.

(** GunnsElectSwitchUtil2.cpp:303-393. *)
Definition w_update_trips (current voltage : T) (step : Z) (s : sw2) : sw2 :=
  let s := w_with_flags s false false in
  if (0 <? step)%Z then
    if (t_trip (w_uv s) || t_trip (w_ov s))
       && negb (w_fopen s || t_trip (w_pc s) || t_trip (w_nc s)) then
      let '(uv, uvr, r1) :=
        if t_trip (w_uv s) then
          let '(uvr, r, just) := check_for_trip GreaterThan (w_uvr s) CONFIRM (tofloat voltage) step in
          if just then (reset_trip (w_uv s), reset_trip uvr, r) else (w_uv s, uvr, r)
        else (w_uv s, w_uvr s, CONFIRM) in
      let '(ov, ovr, r2) :=
        if t_trip (w_ov s) then
          let '(ovr, r, just) := check_for_trip LessThan (w_ovr s) r1 (tofloat voltage) step in
          if just then (reset_trip (w_ov s), reset_trip ovr, r) else (w_ov s, ovr, r)
        else (w_ov s, w_ovr s, r1) in
      let s := w_with_trips s uv uvr ov ovr (w_pc s) (w_nc s) in
      match r2 with
      | DELAY => w_with_flags s true (w_just s)
      | REJECT => let s := w_with_flags s (w_wait s) true in
                  if w_cmd s then w_with_pos s true else s
      | CONFIRM => s
      end
    else if w_cmd s && negb (w_tripped s) && negb (w_fclosed s) then
      let '(uv, r1, _) := check_for_trip LessThan (w_uv s) CONFIRM (tofloat voltage) step in
      let '(ov, r2, _) := check_for_trip GreaterThan (w_ov s) r1 (tofloat voltage) step in
      let '(pc, r3, _) := check_for_trip GreaterThan (w_pc s) r2 (tofloat current) step in
      let '(nc, r4, _) := check_for_trip LessThan (w_nc s) r3 (tofloat current) step in
      let s := w_with_trips s uv (w_uvr s) ov (w_ovr s) pc nc in
      match r4 with
      | DELAY => w_with_flags s true (w_just s)
      | REJECT => w_with_pos (w_with_flags s (w_wait s) true) false
      | CONFIRM => s
      end
    else s
  else s.

(** GunnsElectSwitchUtil2.cpp:190-243 for accepted data ([None]: exception). *)
Definition sw2_init (resist : T) (prio : Z) (pos cmd rst : bool) (uv uvr ov ovr pc nc : T) : option sw2 :=
  if resist <~ flt_epsilon then None
  else if uvr <~ uv then None
  else if ov <~ ovr then None
  else Some
    {| w_fclosed := false; w_fopen := false; w_res := resist; w_pos := pos; w_cmd := cmd; w_rst := rst;
       w_uv := trip_init uv prio false; w_uvr := trip_init uvr prio false;
       w_ov := trip_init ov prio false; w_ovr := trip_init ovr prio false;
       w_pc := trip_init pc prio false; w_nc := trip_init nc prio false;
       w_wait := false; w_just := false |}.

(** What the outside does: update calls, commands, malfunctions on the switch and
    on its trip objects. *)
Inductive which := KUv | KUvr | KOv | KOvr | KPc | KNc.
Inductive wevent :=
| WState | WTrips (current voltage : T) (step : Z) | WCommand (c : bool) | WReset
| WMalf (fclosed fopen : bool) | WTripMalf (k : which) (inhibit force : bool) | WLimit (k : which) (l : T).
Definition w_map (s : sw2) (k : which) (f : trip -> trip) : sw2 :=
  match k with
  | KUv => w_with_trips s (f (w_uv s)) (w_uvr s) (w_ov s) (w_ovr s) (w_pc s) (w_nc s)
  | KUvr => w_with_trips s (w_uv s) (f (w_uvr s)) (w_ov s) (w_ovr s) (w_pc s) (w_nc s)
  | KOv => w_with_trips s (w_uv s) (w_uvr s) (f (w_ov s)) (w_ovr s) (w_pc s) (w_nc s)
  | KOvr => w_with_trips s (w_uv s) (w_uvr s) (w_ov s) (f (w_ovr s)) (w_pc s) (w_nc s)
  | KPc => w_with_trips s (w_uv s) (w_uvr s) (w_ov s) (w_ovr s) (f (w_pc s)) (w_nc s)
  | KNc => w_with_trips s (w_uv s) (w_uvr s) (w_ov s) (w_ovr s) (w_pc s) (f (w_nc s))
  end.
Definition wapply (s : sw2) (e : wevent) : sw2 :=
  match e with
  | WState => w_update_state s
  | WTrips c v k => w_update_trips c v k s
  | WCommand c => w_with_cmd s c (w_rst s)
  | WReset => w_with_cmd s (w_cmd s) true
  | WMalf fc fo =>
      {| w_fclosed := fc; w_fopen := fo; w_res := w_res s; w_pos := w_pos s;
         w_cmd := w_cmd s; w_rst := w_rst s; w_uv := w_uv s; w_uvr := w_uvr s; w_ov := w_ov s;
         w_ovr := w_ovr s; w_pc := w_pc s; w_nc := w_nc s; w_wait := w_wait s; w_just := w_just s |}
  | WTripMalf k i f => w_map s k (fun t => tapply GreaterThan t (TMalf i f))
  | WLimit k l => w_map s k (fun t => set_limit t l)
  end.
End SWITCH2.
