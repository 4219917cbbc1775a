(** Fluid valves.
    Source: /repo/aspects/fluid/conductor/GunnsFluidValve.cpp, GunnsFluidCheckValve.cpp,
    GunnsFluid3WayValve.cpp, GunnsFluid3WayCheckValve.cpp, GunnsFluidLeak.{cpp,hh},
    GunnsFluidPressureSensitiveValve.{cpp,hh}, GunnsFluidReliefValve.cpp,
    GunnsFluidRegulatorValve.cpp, GunnsFluidBalancedPrv.cpp.

    Each updateState is a function of the state it changes and what it reads; the conductor's
    part of the step is in FluidFlow.v.  Fluids, [sq] and [pw] are as there. *)
From Coq Require Import List Bool ZArith.
From Verif Require Import Num MathUtil FluidFlow.
Import ListNotations.

Section VALVES.
Context {T : Type} {N : Num T}.
Variables (sq : T -> T) (pw : T -> T -> T).

(** ** The valve and its leak *)
(** GunnsFluidValve.cpp:261-276 and GunnsFluidPressureSensitiveValve.cpp:608-624: the leak's
    conductivity and the leak rate it was made for. *)
Record through := mkthr { r_flag : bool; r_rate : T; r_prev : T; r_cond : T }.
Definition leak_thru (minp : T) (a b : @fl T) (l : through) : through :=
  if r_flag l then
    if r_prev l ==~ r_rate l then l
    else mkthr true (r_rate l) (r_rate l) (predict_cond sq pw (r_rate l) minp a b half)
  else mkthr false (r_rate l) n0 n0.
(** GunnsFluidValve.cpp:281-284. *)
Definition valve_cond (max pos : T) (l : through) : T :=
  if max *~ pos <~ r_cond l then r_cond l else max *~ pos.
(** GunnsFluidPressureSensitiveValve.cpp:628. *)
Definition psv_cond (max pos : T) (l : through) : T := nmax (max *~ pos) (r_cond l).

(** ** Check valve *)
Record cvalve := mkcv { k_rate : T; k_open : T; k_close : T; k_stuck : bool; k_fail : bool; k_failv : T }.
Definition slew (pos target maxd : T) : T :=
  limit_range (nmax n0 (pos -~ maxd)) target (nmin n1 (pos +~ maxd)).
(** GunnsFluidCheckValve.cpp:257-266. *)
Definition check_target (c : cvalve) (drop : T) : T :=
  if k_open c <=~ drop then n1
  else if drop <=~ k_close c then n0
  else (drop -~ k_close c) /~ (k_open c -~ k_close c).
(** GunnsFluidCheckValve.cpp:248-274. *)
Definition check_pos (dt : T) (c : cvalve) (drop pos : T) : T :=
  if k_stuck c then pos
  else if k_fail c then limit_range n0 (k_failv c) n1
  else slew pos (check_target c drop) (k_rate c *~ dt).
(** GunnsFluidCheckValve.cpp:213-229. *)
Definition check_valid (c : cvalve) : bool :=
  negb (k_rate c <~ n0) && negb (k_open c <~ k_close c) && is_in_range n0 (k_failv c) n1.

(** ** Three-way valve *)
(** GunnsFluid3WayValve.cpp:312-333: the positions of paths A and B. *)
Definition three_way (path_b : bool) (band pos : T) : T * T :=
  let pair (x y : T) := if path_b then (x, y) else (y, x) in
  if n0 <~ band then
    let w := nmax neps (half -~ half *~ band) in
    pair (nmax n0 ((w -~ pos) /~ w)) (nmax n0 ((pos -~ (n1 -~ w)) /~ w))
  else pair (n1 -~ pos) pos.
(** GunnsFluid3WayValve.cpp:246-259. *)
Definition three_valid (band pos : T) : bool :=
  is_in_range n0 band (n1 -~ neps) && is_in_range n0 pos n1.

(** ** Three-way check valve *)
Record tcvalve := mktcv {
  t_rate : T; t_opena : T; t_openb : T; t_mind : T;
  t_stuck : bool; t_fail : bool; t_failv : T; t_pathb : bool
}.
(** GunnsFluid3WayCheckValve.cpp:284-318. *)
Definition tc_target (c : tcvalve) (pa pb pos : T) : T :=
  if (pa <~ n0) && (pb <~ n0) then pos
  else
    let x := if nabs (pa -~ pb) <~ t_mind c then half
             else if pb <~ pa then
               limit_range half (half *~ (n1 +~ (pa -~ pb -~ t_mind c) /~ (t_opena c -~ t_mind c))) n1
             else if pa <~ pb then
               limit_range n0 (half *~ (n1 -~ (pb -~ pa -~ t_mind c) /~ (t_opena c -~ t_mind c))) half
             else pos in
    if t_pathb c then n1 -~ x else x.
(** GunnsFluid3WayCheckValve.cpp:255-273. *)
Definition tc_pos (dt : T) (c : tcvalve) (pa pb pos : T) : T :=
  if t_stuck c then pos
  else if t_fail c then limit_range n0 (t_failv c) n1
  else slew pos (tc_target c pa pb pos) (t_rate c *~ dt).
(** GunnsFluid3WayCheckValve.cpp:223-239. *)
Definition tc_valid (c : tcvalve) : bool :=
  negb (t_rate c <~ n0) && negb (t_opena c -~ t_mind c <=~ neps) &&
  negb (t_openb c -~ t_mind c <=~ neps) && is_in_range n0 (t_failv c) n1.

(** ** Leak *)
(** GunnsFluidLeak.hh; [e_eff] is mEffectiveConductivity. *)
Record leak := mkleak {
  e_hole : bool; e_holev : T; e_rate : bool; e_ratev : T;
  e_phole : T; e_prate : T; e_cond : T; e_eff : T
}.
(** GunnsFluidLeak.cpp:227-252, GunnsFluidLeak.hh:159-165. *)
Definition leak_update (minp : T) (a b : @fl T) (l : leak) : leak :=
  if e_hole l then
    let same := e_phole l ==~ e_holev l in
    let c := if same then e_cond l else e_holev l in
    mkleak true (e_holev l) (e_rate l) (e_ratev l)
           (if same then e_phole l else e_holev l) (e_prate l) c c
  else if e_rate l then
    let same := e_prate l ==~ e_ratev l in
    let c := if same then e_cond l else predict_cond sq pw (e_ratev l) minp a b half in
    mkleak false (e_holev l) true (e_ratev l)
           (e_phole l) (if same then e_prate l else e_ratev l) c c
  else mkleak false (e_holev l) false (e_ratev l) n0 n0 n0 n0.
(** setMalfLeakHole and setMalfLeakRate, GunnsFluidLeak.cpp:261-278. *)
Definition set_hole (l : leak) (flag : bool) (v : T) : leak :=
  mkleak flag v (e_rate l) (e_ratev l) (e_phole l) (e_prate l) (e_cond l) (e_eff l).
Definition set_rate (l : leak) (flag : bool) (v : T) : leak :=
  mkleak (e_hole l) (e_holev l) flag v (e_phole l) (e_prate l) (e_cond l) (e_eff l).

(** ** Relief and regulator valves *)
(** GunnsFluidPressureSensitiveValve.cpp:400-413, GunnsFluidPressureSensitiveValve.hh:287-290. *)
Definition control_pressure (p0 p2 p3 : T) (malf : bool) (malfv setp c0 c1 : T) : T :=
  let p := p2 -~ p3 in
  let p := if malf then p +~ malfv else p in
  p -~ setp -~ (c0 +~ c1 *~ p0).
Inductive vstate := V_CLOSED | V_OPENING | V_OPEN | V_CLOSING | V_TRANS.
(** One of the two curves: gain, its inverse and bias up to the pop position, pressure there,
    gain, inverse and bias beyond. *)
Record curve := mkcurve {
  u_m : T; u_inv : T; u_b : T; u_p : T; u_nm : T; u_ninv : T; u_nb : T
}.
Record rcfg := mkrcfg { g_reseat : T; g_crack : T; g_full : T; g_pop : T; g_scale : T; g_rate : T }.
(** GunnsFluidReliefValve.cpp:338-347 for the crack pressure, 350-359 for the reseat pressure;
    GunnsFluidRegulatorValve.cpp:339-348, 351-360 likewise. *)
Definition derive_curve (c : rcfg) (start : T) : curve :=
  let m := n1 /~ (g_full c -~ start) *~ g_scale c in
  let inv := n1 /~ m in
  let b := nopp m *~ start in
  let p := (g_pop c -~ b) *~ inv in
  let nm := (n1 -~ g_pop c) /~ (g_full c -~ p) in
  mkcurve m inv b p nm (n1 /~ nm) (n1 -~ nm *~ g_full c).
Record rvalve := mkrv {
  w_state : vstate; w_pos : T; w_prev : T; w_stuck : bool; w_fail : bool; w_failv : T
}.
(** The pressure on a curve of a position, GunnsFluidReliefValve.cpp:455-461. *)
Definition curve_pressure (pop : T) (u : curve) (pos : T) : T :=
  if pos <=~ pop then (pos -~ u_b u) *~ u_inv u else (pos -~ u_nb u) *~ u_ninv u.
(** updateValveState, GunnsFluidReliefValve.cpp:426-468; [inc] is the opening curve. *)
Definition relief_state (c : rcfg) (inc dec : curve) (p : T) (v : rvalve) : vstate :=
  let s := match w_state v with
           | V_OPEN => if p <~ g_full c then V_CLOSING else V_OPEN
           | V_CLOSED => if g_crack c <~ p then V_OPENING else V_CLOSED
           | V_OPENING => if g_full c <~ p then V_OPEN else if p <~ w_prev v then V_TRANS else V_OPENING
           | V_CLOSING => if p <~ g_reseat c then V_CLOSED else if w_prev v <~ p then V_TRANS else V_CLOSING
           | V_TRANS => V_TRANS
           end in
  match s with
  | V_TRANS => if curve_pressure (g_pop c) inc (w_pos v) <~ p then V_OPENING
               else if p <~ curve_pressure (g_pop c) dec (w_pos v) then V_CLOSING else V_TRANS
  | _ => s
  end.
(** The position on a curve, GunnsFluidReliefValve.cpp:499-503, 506-510. *)
Definition relief_on (u : curve) (p : T) : T :=
  if p <=~ u_p u then u_b u +~ u_m u *~ p else u_nb u +~ u_nm u *~ p.
(** GunnsFluidReliefValve.cpp:491-516. *)
Definition relief_target (inc dec : curve) (p : T) (s : vstate) (pos : T) : T :=
  match s with
  | V_CLOSED => n0
  | V_OPEN => n1
  | V_OPENING => relief_on inc p
  | V_CLOSING => relief_on dec p
  | V_TRANS => pos
  end.
(** GunnsFluidReliefValve.cpp:525-529. *)
Definition settle (s : vstate) (pos : T) : vstate :=
  match s with
  | V_CLOSED => if n0 <~ pos then V_CLOSING else V_CLOSED
  | V_OPEN => if pos <~ n1 then V_OPENING else V_OPEN
  | _ => s
  end.
(** updateState, GunnsFluidReliefValve.cpp:382-397, with updatePosition, 486-530; [target] as above. *)
Definition rv_update (dt rate : T) (s : vstate) (target : vstate -> T) (p : T) (v : rvalve) : rvalve :=
  if w_stuck v then mkrv s (w_pos v) p (w_stuck v) (w_fail v) (w_failv v)
  else if w_fail v then mkrv s (limit_range n0 (w_failv v) n1) p (w_stuck v) (w_fail v) (w_failv v)
  else
    let pos := slew (w_pos v) (target s) (rate *~ dt) in
    mkrv (settle s pos) pos p (w_stuck v) (w_fail v) (w_failv v).
Definition relief_update (dt : T) (c : rcfg) (p : T) (v : rvalve) : rvalve :=
  let inc := derive_curve c (g_crack c) in
  let dec := derive_curve c (g_reseat c) in
  rv_update dt (g_rate c) (relief_state c inc dec p v) (fun s => relief_target inc dec p s (w_pos v)) p v.
(** GunnsFluidReliefValve.cpp:362-371; the control pressure is zero before the first step. *)
Definition rv_init (pos : T) (stuck fail : bool) (failv : T) : rvalve :=
  mkrv (if pos <=~ n0 then V_CLOSED else if n1 <=~ pos then V_OPEN else V_OPENING)
       pos n0 stuck fail failv.
(** GunnsFluidReliefValve.cpp:269-297. *)
Definition relief_valid (c : rcfg) : bool :=
  negb (g_reseat c <~ feps) && negb (nopp feps <~ g_reseat c -~ g_crack c) &&
  negb (nopp feps <~ g_crack c -~ g_full c) && is_in_range feps (g_pop c) (n1 -~ feps) &&
  negb (g_scale c <~ n1).

(** GunnsFluidRegulatorValve.cpp:427-469; here the opening curve is the one of falling pressure,
    from the crack pressure ([dec] there). *)
Definition reg_state (c : rcfg) (inc dec : curve) (p : T) (v : rvalve) : vstate :=
  let s := match w_state v with
           | V_OPEN => if g_full c <~ p then V_CLOSING else V_OPEN
           | V_CLOSED => if p <~ g_crack c then V_OPENING else V_CLOSED
           | V_OPENING => if p <~ g_full c then V_OPEN else if w_prev v <~ p then V_TRANS else V_OPENING
           | V_CLOSING => if g_reseat c <~ p then V_CLOSED else if p <~ w_prev v then V_TRANS else V_CLOSING
           | V_TRANS => V_TRANS
           end in
  match s with
  | V_TRANS => if curve_pressure (g_pop c) inc (w_pos v) <~ p then V_CLOSING
               else if p <~ curve_pressure (g_pop c) dec (w_pos v) then V_OPENING else V_TRANS
  | _ => s
  end.
(** GunnsFluidRegulatorValve.cpp:500-511. *)
Definition reg_on (u : curve) (p : T) : T :=
  if u_p u <=~ p then u_b u +~ u_m u *~ p else u_nb u +~ u_nm u *~ p.
(** GunnsFluidRegulatorValve.cpp:492-519. *)
Definition reg_target (inc dec : curve) (p : T) (s : vstate) (pos : T) : T :=
  match s with
  | V_CLOSED => n0
  | V_OPEN => n1
  | V_OPENING => reg_on dec p
  | V_CLOSING => reg_on inc p
  | V_TRANS => pos
  end.
(** GunnsFluidRegulatorValve.cpp:383-398, 487-533. *)
Definition reg_update (dt : T) (c : rcfg) (p : T) (v : rvalve) : rvalve :=
  let dec := derive_curve c (g_crack c) in
  let inc := derive_curve c (g_reseat c) in
  rv_update dt (g_rate c) (reg_state c inc dec p v) (fun s => reg_target inc dec p s (w_pos v)) p v.
(** GunnsFluidRegulatorValve.cpp:271-297. *)
Definition reg_valid (c : rcfg) : bool :=
  negb (g_full c <~ feps) && negb (nopp feps <~ g_full c -~ g_crack c) &&
  negb (nopp feps <~ g_crack c -~ g_reseat c) && is_in_range feps (g_pop c) (n1 -~ feps) &&
  negb (g_scale c <~ n1).

(** ** Balanced pressure regulator *)
(** GunnsFluidBalancedPrv.hh; [z_a0], [z_a4] are the matrix entries that are not zero, [z_w1] the
    source vector's. *)
Record prv := mkprv {
  z_mflag : bool; z_mbias : T; z_droop : T; z_set : T; z_block : bool; z_blockv : T; z_lim : T;
  z_inlet : T; z_exit : T; z_buffer : T; z_reg : T; z_cut : bool;
  z_a0 : T; z_a4 : T; z_w1 : T; z_upd : bool
}.
(** step, GunnsFluidBalancedPrv.cpp:226-265; [mw] is the inlet node's molecular weight, [p0] to
    [p2] the potentials. *)
Definition prv_cut (z : prv) (p0 p1 : T) : bool :=
  if p0 <~ p1 then true else if p1 <~ z_set z then false else z_cut z.
Definition prv_reg (z : prv) (p0 p2 : T) : T :=
  let r := z_set z +~ p2 in
  nmin (if z_mflag z then r +~ z_mbias z else r) p0.
Definition prv_exit (z : prv) (cut : bool) (mw : T) : T :=
  if cut || (mw <~ feps) then n0
  else
    let g := n1 /~ mw /~ limit_range feps (z_droop z) (n1 /~ feps) in
    if z_block z then g *~ (n1 -~ z_blockv z) else g.
Definition prv_inlet (z : prv) (dt mw p0 : T) : T :=
  let g := if (dt <~ neps) || (mw <~ feps) || (p0 <~ neps) then n0
           else ndec 2 (-1) *~ z_buffer z /~ dt /~ mw /~ p0 in
  limit_range n0 g (z_lim z).
Definition prv_step (dt mw p0 p1 p2 : T) (z : prv) : prv :=
  let cut := prv_cut z p0 p1 in
  let reg := prv_reg z p0 p2 in
  let ex := prv_exit z cut mw in
  let inl := prv_inlet z dt mw p0 in
  let changed := negb (z_a0 z ==~ inl) || negb (z_a4 z ==~ ex) in
  mkprv (z_mflag z) (z_mbias z) (z_droop z) (z_set z) (z_block z) (z_blockv z) (z_lim z)
        inl ex (z_buffer z) reg cut
        (if changed then inl else z_a0 z) (if changed then ex else z_a4 z) (reg *~ ex) changed.
(** computeFlows, GunnsFluidBalancedPrv.cpp:313-314: the inlet and exit fluxes. *)
Definition prv_flux (p0 p1 : T) (z : prv) : T * T :=
  (nmax n0 (p0 *~ z_a0 z), nmax n0 (nopp p1 *~ z_a4 z +~ z_w1 z)).
(** transportFlows, GunnsFluidBalancedPrv.cpp:336-363: what is taken from the inlet node, what is
    given to the exit node, and the valve with its buffer. *)
Definition prv_flows (dt mw p0 p1 : T) (z : prv) : T * T * prv :=
  let fin := mw *~ fst (prv_flux p0 p1 z) in
  let fout := mw *~ snd (prv_flux p0 p1 z) in
  let lim := ndec 100 0 *~ neps in
  let buf := z_buffer z +~ (fout -~ fin) *~ dt in
  (if lim <~ fin then fin else n0, if lim <~ fout then fout else n0,
   mkprv (z_mflag z) (z_mbias z) (z_droop z) (z_set z) (z_block z) (z_blockv z) (z_lim z)
         (z_inlet z) (z_exit z) (if buf <~ neps then n0 else buf) (z_reg z) (z_cut z)
         (z_a0 z) (z_a4 z) (z_w1 z) (z_upd z)).
End VALVES.
