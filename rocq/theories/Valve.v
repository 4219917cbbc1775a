(** Valve controllers and their sensors.
    Source: /repo/gunns-ts-models/common/controllers/fluid/TsValveController.{cpp,hh},
    TsPoweredValveController.cpp, TsOpenCloseValveController.cpp, TsSpeedValveController.cpp,
    TsPositionValveController.cpp, TsToggleValveCmd.cpp, TsToggleValveController.cpp,
    TsTValveController.cpp, TsDualSolenoidValveController.cpp, ../valveAssemblies and
    /repo/gunns-ts-models/common/sensors/SensorBooleanBi.cpp, SensorBooleanAi.cpp, SensorBase.hh.

    Names are reduced to whether they are empty; messages are left out.  An initialize sets
    every field, so it is a function from its arguments; [None]: it threw. *)
From Coq Require Import List Bool ZArith.
From Verif Require Import Num MathUtil.
Import ListNotations.

Inductive latch := LATCHING | NORMALLY_OPEN | NORMALLY_CLOSED.

Section VALVE.
Context {T : Type} {N : Num T}.

(** ** TsValveController *)
(** TsValveController.hh:104-150. *)
Record valve := mkvalve {
  v_mstuck : bool; v_mfail : bool; v_mfailv : T; v_mman : bool;   (* malfunctions *)
  v_min : T; v_max : T; v_bias : T; v_scale : T;
  v_pos : T; v_man : bool; v_manv : T;
  v_stuck : bool; v_lower : bool; v_upper : bool; v_fluid : T
}.
(** The malfunctions, which are public, and the setters TsValveController.hh:253-270. *)
Definition set_malf (v : valve) (stuck fail : bool) (failv : T) (man : bool) : valve :=
  mkvalve stuck fail failv man (v_min v) (v_max v) (v_bias v) (v_scale v) (v_pos v) (v_man v)
          (v_manv v) (v_stuck v) (v_lower v) (v_upper v) (v_fluid v).
Definition set_position (v : valve) (x : T) : valve :=
  mkvalve (v_mstuck v) (v_mfail v) (v_mfailv v) (v_mman v) (v_min v) (v_max v) (v_bias v)
          (v_scale v) x (v_man v) (v_manv v) (v_stuck v) (v_lower v) (v_upper v) (v_fluid v).
Definition set_manual (v : valve) (flag : bool) (x : T) : valve :=
  mkvalve (v_mstuck v) (v_mfail v) (v_mfailv v) (v_mman v) (v_min v) (v_max v) (v_bias v)
          (v_scale v) (v_pos v) flag x (v_stuck v) (v_lower v) (v_upper v) (v_fluid v).
(** updatePosition, TsValveController.cpp:270-297. *)
Definition update_position (v : valve) (x : T) : valve :=
  let p := if v_mstuck v then v_pos v
           else if v_mfail v then v_mfailv v
           else if v_man v && negb (v_mman v) then v_manv v
           else x in
  let q := limit_range (v_min v) p (v_max v) in
  mkvalve (v_mstuck v) (v_mfail v) (v_mfailv v) (v_mman v) (v_min v) (v_max v) (v_bias v)
          (v_scale v) q (v_man v) (v_manv v)
          (v_mstuck v || v_mfail v) (p <=~ v_min v) (v_max v <=~ p)
          (limit_range n0 (v_bias v +~ v_scale v *~ q) n1).
(** TsValveController.cpp:260-263. *)
Definition valve_update (v : valve) : valve := update_position v (v_pos v).
(** TsValveController.hh:48-60, 77-87. *)
Record vcfg := mkvcfg { c_min : T; c_max : T; c_minf : T; c_maxf : T }.
Record vinp := mkvinp { i_pos : T; i_man : bool; i_manv : T }.
(** TsValveController.cpp:235-249; [true]: no exception. *)
Definition valve_valid (c : vcfg) (i : vinp) : bool :=
  negb (c_maxf c <=~ c_minf c) && is_in_range (c_min c) (i_pos i) (c_max c) &&
  negb (i_man i && negb (is_in_range (c_min c) (i_manv i) (c_max c))).
(** TsValveController.cpp:188-223. *)
Definition valve_init (c : vcfg) (i : vinp) (named : bool) : option valve :=
  if named && valve_valid c i then
    let scale := (c_maxf c -~ c_minf c) /~ (c_max c -~ c_min c) in
    Some (valve_update
      (mkvalve false false n0 false (c_min c) (c_max c) (c_maxf c -~ scale *~ c_max c) scale
               (i_pos i) (i_man i) (i_manv i) false false false n0))
  else None.

(** ** TsPoweredValveController *)
(** TsPoweredValveController.hh:84-137. *)
Record powered := mkpowered {
  p_v : valve;
  p_mgood : bool; p_mpfail : bool; p_mdstuck : bool; p_mdfail : bool; p_mdfailv : T;
  p_cs : T; p_hold : T; p_move : T; p_stuckp : T; p_holdr : T; p_mover : T; p_stuckr : T;
  p_eot : bool; p_latch : latch;
  p_supply : bool; p_en : bool; p_cmd : T; p_power : T; p_res : T
}.
Definition max_resistance : T := ndec 1 6.                       (* TsPoweredValveController.cpp:19 *)
(** updatePower, TsPoweredValveController.cpp:380-408: power and resistance. *)
Definition update_power (p : powered) : T * T :=
  let v := p_v p in
  if (p_supply p || p_mgood p) && negb (p_mpfail p) && p_en p then
    if (neps <~ nabs (p_cmd p)) && (negb (v_man v) || v_mman v) then
      let below := (v_pos v <=~ v_min v) &&
        (((p_cmd p <~ n0) && (n0 <~ p_cs p)) || ((n0 <~ p_cmd p) && (p_cs p <~ n0))) in
      let above := (v_max v <=~ v_pos v) &&
        (((n0 <~ p_cmd p) && (n0 <~ p_cs p)) || ((p_cmd p <~ n0) && (p_cs p <~ n0))) in
      if v_mstuck v || p_mdstuck p || below || above then (p_stuckp p, p_stuckr p)
      else (p_move p, p_mover p)
    else (p_hold p, p_holdr p)
  else (n0, max_resistance).
(** The position asked for, TsPoweredValveController.cpp:339-365. *)
Definition drive (p : powered) (dt : T) : T :=
  let v := p_v p in
  if p_mdstuck p then v_pos v
  else if p_mdfail p then p_mdfailv p
  else if negb (p_supply p || p_mgood p) || p_mpfail p || negb (p_en p) then
    match p_latch p with
    | NORMALLY_CLOSED => v_min v
    | NORMALLY_OPEN => v_max v
    | LATCHING => v_pos v
    end
  else v_pos v +~ p_cmd p *~ p_cs p *~ dt.
(** TsPoweredValveController.cpp:337-372. *)
Definition powered_update (p : powered) (dt : T) : powered :=
  let x := drive p dt in
  let pr := update_power p in
  mkpowered (update_position (p_v p) x) (p_mgood p) (p_mpfail p) (p_mdstuck p) (p_mdfail p)
    (p_mdfailv p) (p_cs p) (p_hold p) (p_move p) (p_stuckp p) (p_holdr p) (p_mover p) (p_stuckr p)
    (p_eot p) (p_latch p) (p_supply p) (p_en p) (p_cmd p) (fst pr) (snd pr).
(** TsPoweredValveController.cpp:322-328. *)
Definition powered_cmd (p : powered) (supply en : bool) (cmd dt : T) : powered :=
  powered_update
    (mkpowered (p_v p) (p_mgood p) (p_mpfail p) (p_mdstuck p) (p_mdfail p)
      (p_mdfailv p) (p_cs p) (p_hold p) (p_move p) (p_stuckp p) (p_holdr p) (p_mover p) (p_stuckr p)
      (p_eot p) (p_latch p) supply en cmd (p_power p) (p_res p)) dt.
(** TsPoweredValveController.hh:158-196. *)
Record pcfg := mkpcfg {
  pc_v : vcfg; pc_transit : T; pc_ref : T; pc_hold : T; pc_move : T; pc_stuck : T; pc_volt : T;
  pc_eot : bool; pc_latch : latch }.
Record pinp := mkpinp { pi_v : vinp; pi_supply : bool; pi_en : bool; pi_cmd : T }.
(** TsPoweredValveController.cpp:288-310. *)
Definition powered_valid (c : pcfg) : bool :=
  negb (pc_transit c <~ neps) && negb (is_in_range (nopp neps) (pc_ref c) neps) &&
  negb (pc_hold c <~ neps) && negb (pc_stuck c <~ neps) && negb (pc_move c <~ neps).
(** TsPoweredValveController.cpp:234-276. *)
Definition powered_init (c : pcfg) (i : pinp) (named : bool) : option powered :=
  match valve_init (pc_v c) (pi_v i) named with
  | None => None
  | Some v =>
      if powered_valid c then
        let vsq := pc_volt c *~ pc_volt c in
        Some (powered_update
          (mkpowered v false false false false n0
            ((v_max v -~ v_min v) /~ (pc_ref c *~ pc_transit c))
            (pc_hold c) (pc_move c) (pc_stuck c)
            (vsq /~ pc_hold c) (vsq /~ pc_move c) (vsq /~ pc_stuck c)
            (pc_eot c) (pc_latch c) (pi_supply i) (pi_en i) (pi_cmd i) n0 n0) n0)
      else None
  end.

(** ** The commands of the powered controllers *)
(** TsOpenCloseValveController.cpp:101-118, with [flt_eps] given: FLT_EPSILON. *)
Definition open_close_cmd (flt_eps : T) (opn cls unstowed : bool) (handle : T) : T :=
  let cmd := if opn && negb cls then n1 else if negb opn && cls then nopp n1 else n0 in
  if unstowed then (if flt_eps <~ handle then n1 else nopp n1) else cmd.
(** TsOpenCloseValveController.cpp:134-144. *)
Definition open_close_eot_cmd (opn cls sopn scls : bool) : T :=
  if opn && negb cls && negb sopn then n1
  else if negb opn && cls && negb scls then nopp n1 else n0.
(** TsOpenCloseValveController.cpp:83-90. *)
Definition open_close_update (flt_eps : T) (p : powered) (supply en opn cls sopn scls unstowed : bool)
    (handle dt : T) : powered :=
  powered_cmd p supply en
    (if p_eot p then open_close_eot_cmd opn cls sopn scls
     else open_close_cmd flt_eps opn cls unstowed handle) dt.
(** TsSpeedValveController.cpp:117-129 and 81-104. *)
Definition speed_eot_cmd (cs cmd : T) (sopn scls : bool) : T :=
  if (n0 <~ cmd) && ((sopn && (n0 <~ cs)) || (scls && (cs <~ n0))) then n0
  else if (cmd <~ n0) && ((sopn && (cs <~ n0)) || (scls && (n0 <~ cs))) then n0 else cmd.
Definition speed_update (p : powered) (supply en : bool) (cmd : T) (sopn scls : bool) (dt : T) : powered :=
  powered_cmd p supply en (if p_eot p then speed_eot_cmd (p_cs p) cmd sopn scls else cmd) dt.
(** TsPositionValveController.cpp:185-199; the reference command of its configuration is one,
    :49-60. *)
Definition position_cmd (cs tol target sensed dt : T) : T :=
  if nabs (target -~ sensed) <~ tol then n0
  else if neps <~ dt then
    let limit := dt *~ cs in limit_range (nopp limit) (target -~ sensed) limit /~ limit
  else n0.
Definition position_update (p : powered) (supply en : bool) (tol target sensed dt : T) : powered :=
  powered_cmd p supply en (position_cmd (p_cs p) tol target sensed dt) dt.

(** ** TsToggleValveCmd *)
(** TsToggleValveCmd.hh:45-62; the queues are arguments of the update. *)
Record tcmd := mktcmd { t_en : bool; t_tog : bool; t_armed : bool; t_count : Z }.
(** TsToggleValveCmd.cpp:54-63: count and armed flag. *)
Fixpoint queue_count (armed : bool) (q : list (bool * bool)) : Z * bool :=
  match q with
  | [] => (0%Z, armed)
  | (en, tog) :: q =>
      if armed && tog && en then let '(n, a) := queue_count false q in ((n + 1)%Z, a)
      else if negb armed && negb tog && en then queue_count true q
      else queue_count armed q
  end.
(** TsToggleValveCmd.cpp:48-99; [qe] and [qt] are the queues of enable and toggle flags.
    [None]: the enable queue is shorter than the toggle queue and is read beyond its end.
    The fraction of the enable flags is compared with 0.49 in integers: for a queue of less than
    2^31 flags the quotient in double is on the same side of 0.49. *)
Definition tcmd_update (c : tcmd) (dt : T) (qe qt : list bool) : option tcmd :=
  if neps <~ dt then
    match qt with
    | _ :: _ =>
        if Nat.ltb (length qe) (length qt) then None else
        let '(n, a) := queue_count (t_armed c) (combine qe qt) in
        let tog := (n mod 2 =? 1)%Z in
        let en := tog || (49 * Z.of_nat (length qe) <=? 100 * Z.of_nat (length (filter id qe)))%Z in
        Some (mktcmd en tog a (t_count c + n))
    | [] =>
        let '(tog, a) := if t_armed c && t_tog c && t_en c then (t_tog c, false)
                         else if negb (t_armed c) && negb (t_tog c) && t_en c then (t_tog c, true)
                         else (false, t_armed c) in
        Some (mktcmd (t_en c) tog a (if tog then t_count c + 1 else t_count c)%Z)
    end
  else Some c.
(** ** TsToggleValveController *)
(** TsToggleValveController.cpp:60. *)
Definition mid (p : powered) : T := ndec 5 (-1) *~ (v_min (p_v p) +~ v_max (p_v p)).
(** TsToggleValveController.cpp:101-135. *)
Definition toggle_cmd (p : powered) (tog sopn scls : bool) (dt : T) : T :=
  let v := p_v p in
  if tog && (neps <~ dt) then
    if p_eot p then
      if (v_pos v <~ mid p) && negb sopn then (v_max v -~ v_min v) /~ dt
      else if (mid p <=~ v_pos v) && negb scls then (v_min v -~ v_max v) /~ dt else n0
    else
      if v_pos v <~ mid p then (v_max v -~ v_min v) /~ dt else (v_min v -~ v_max v) /~ dt
  else n0.
(** TsToggleValveController.cpp:82-91. *)
Definition toggle_update (s : powered * tcmd) (supply : bool) (qe qt : list bool) (sopn scls : bool) (dt : T)
    : option (powered * tcmd) :=
  match tcmd_update (snd s) dt qe qt with
  | None => None
  | Some c => Some (powered_cmd (fst s) supply (t_en c) (toggle_cmd (fst s) (t_tog c) sopn scls dt) dt, c)
  end.

(** ** TsTValveController *)
Inductive tpos := T_NONE | T_A | T_B.
(** TsTValveController.cpp:166-193. *)
Definition tvalve_update (ab : valve * valve) (s : tpos) : valve * valve :=
  let '(a, b) := ab in
  let '(a, b) := match s with
    | T_NONE => (set_manual a true (v_min a), set_manual b true (v_min b))
    | T_A => (set_manual a true (v_max a), set_manual b true (v_min b))
    | T_B => (set_manual a true (v_min a), set_manual b true (v_max b))
    end in
  (valve_update a, valve_update b).

(** ** TsDualSolenoidValveController *)
(** TsDualSolenoidValveController.cpp:222-266; the loads and the position asked for. *)
Definition dual_position (v : valve) (l : latch) (opn cls mopn mcls : bool) : bool * bool * T :=
  let o := opn && negb mopn in let c := cls && negb mcls in
  (o, c,
   if negb c && o then v_max v
   else if negb o && c then v_min v
   else match l with
        | NORMALLY_OPEN => v_max v
        | NORMALLY_CLOSED => v_min v
        | LATCHING => if ndec 5 (-1) *~ (v_max v +~ v_min v) <=~ v_pos v then v_max v else v_min v
        end).
Definition dual_update (v : valve) (l : latch) (opn cls mopn mcls : bool) : valve :=
  update_position v (snd (dual_position v l opn cls mopn mcls)).

(** ** SensorBooleanBi and SensorBooleanAi *)
(** SensorBase.hh:109-113, 141 and SensorBooleanBi.hh:106, 138-140. *)
Record bsense := mkbsense {
  b_power : bool; b_failto : bool; b_failtov : bool; b_failoff : bool; b_failstuck : bool;
  b_ignore : bool; b_perfect : bool; b_off : bool; b_out : bool }.
(** SensorBooleanBi.cpp:181-198 with SensorBase.hh:210-213: the sensed output for a truth. *)
Definition bool_sense (s : bsense) (truth : bool) : bool :=
  if b_perfect s then truth
  else if (b_power s || b_ignore s) && negb (b_failoff s) then
    if b_failto s then b_failtov s else if b_failstuck s then b_out s else truth
  else b_off s.
(** SensorBooleanAi.cpp:232-239, the comparison; [cast] is the cast to float. *)
Definition analog_truth {F : Type} {NF : Num F} (cast : T -> F) (target tol : F) (x : T) : bool :=
  nabs (cast x -~ target) <=~ tol.
End VALVE.
Arguments valve : clear implicits.
Arguments vcfg : clear implicits.
Arguments vinp : clear implicits.
Arguments powered : clear implicits.
Arguments pcfg : clear implicits.
Arguments pinp : clear implicits.
