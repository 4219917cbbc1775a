(** User loads, their duty cycles and fuses, the short malfunction, the switch that feeds a list of
    loads, and the selector.
    Source: /repo/aspects/electrical/UserLoad/UserLoadBase.{cpp,hh}, ResistiveLoad.cpp,
    ConstantPowerLoad.cpp, GunnsElectUserLoad.cpp; /repo/aspects/electrical/resistive/
    GunnsShortUtil.cpp; /repo/aspects/electrical/Switch/GunnsElectUserLoadSwitch.{cpp,hh} and
    GunnsElectSelector.{cpp,hh}, on the switch of Trip.v and the links of BasicLinks.v.

    Left out: names, card numbers, messages, changes of the port map. *)
From Coq Require Import List Bool ZArith Arith.
From Verif Require Import Num Loops MathUtil BasicLinks Trip.
Import ListNotations.

Section LOADS.
Context {T : Type} {N : Num T}.

(** ** The loads *)
Inductive mode := Off | On | Standby.          (* UserLoadMode *)
Record load := mkload {
  d_cp : bool;                                 (* ConstantPowerLoad, else ResistiveLoad *)
  d_norm : T; d_stby : T;                      (* mPowerNormal or mResistanceNormal, and Standby *)
  d_uv : T; d_fuse : T;                        (* mUnderVoltageLimit, mFuseCurrentLimit *)
  d_mode : mode;                               (* mLoadOperMode *)
  d_oc : option T; d_op : option T;            (* mMalfOverrideCurrent*, mMalfOverridePower* *)
  d_bf : bool; d_magic : option T;             (* mMalfBlowFuse, mMagicPower* *)
  d_blown : bool;                              (* mFuseIsBlown *)
  d_v : T; d_valid : bool;                     (* mVoltage, mPowerValid *)
  d_i : T; d_p : T; d_r : T                    (* mCurrent, mActualPower, mEquivalentResistance *)
}.
(** UserLoadBase.cpp:40-42. *)
Definition max_resistance : T := ndec 1 8.
Definition min_resistance : T := ndec 1 (-1).
Definition default_resistance : T := ndec 1 6.
Definition with_load (l : load) (blown : bool) (v : T) (valid : bool) (i p r : T) : load :=
  mkload (d_cp l) (d_norm l) (d_stby l) (d_uv l) (d_fuse l) (d_mode l) (d_oc l) (d_op l) (d_bf l) (d_magic l)
         blown v valid i p r.
Definition with_mode (l : load) (m : mode) : load :=
  mkload (d_cp l) (d_norm l) (d_stby l) (d_uv l) (d_fuse l) m (d_oc l) (d_op l) (d_bf l) (d_magic l)
         (d_blown l) (d_v l) (d_valid l) (d_i l) (d_p l) (d_r l).
(** validate, ResistiveLoad.cpp:211-226 and ConstantPowerLoad.cpp:196-213; initialize,
    UserLoadBase.cpp:212-271 (a blown fuse of an earlier life is not mended there: the object is new). *)
Definition load_init (cp : bool) (norm stby uv fuse : T) (m : mode) (v : T) : option load :=
  let top := if cp then ndec 1 7 else max_resistance in
  if (norm <~ n0) || (top <~ norm) || (stby <~ n0) || (top <~ stby) then None
  else Some (mkload cp norm stby uv fuse m None None false None false v (uv <=~ v) n0 n0 max_resistance).
(** UserLoadBase::step :324-346. *)
Definition load_begin (v : T) (l : load) : load :=
  let blown := d_bf l || d_blown l in
  let v := match d_magic l with Some m => m | None => if blown then n0 else v end in
  with_load l blown v (d_uv l <~ v) n0 n0 max_resistance.
(** ResistiveLoad::computeActualPower :335-355; [None]: TsNumericalException. *)
Definition resist_power (r : T) (l : load) : option load :=
  if n0 <=~ r then
    let r := if n0 ==~ r then default_resistance else r in
    Some (with_load l (d_blown l) (d_v l) (d_valid l) (d_v l /~ r) (d_v l *~ d_v l /~ r) r)
  else if r <~ n0 then None
  else Some (with_load l (d_blown l) (d_v l) (d_valid l) (d_i l) (d_p l) r).
Definition resist_of (r : T) : T :=
  if n0 <~ r then limit_range min_resistance r max_resistance else max_resistance.
(** calculateResistiveLoad :264-327. *)
Definition resist_calc (l : load) : option load :=
  if negb (d_valid l) then Some l
  else match d_oc l, d_op l with
       | Some i, _ => if n0 <=~ i
                      then resist_power (if n0 ==~ i then max_resistance else d_v l /~ i) l else None
       | None, Some p => if n0 <=~ p
                         then resist_power (if n0 ==~ p then max_resistance else d_v l *~ d_v l /~ p) l else None
       | None, None => match d_mode l with
                       | Off => Some l
                       | On => resist_power (resist_of (d_norm l)) l
                       | Standby => resist_power (resist_of (d_stby l)) l
                       end
       end.
(** ConstantPowerLoad::computeActualPower :289-305. *)
Definition cp_power (p : T) (l : load) : option load :=
  let i := p /~ d_v l in
  if n0 <~ p then
    let u := nmax (d_v l) (ndec 99 (-2) *~ d_uv l) in
    Some (with_load l (d_blown l) (d_v l) (d_valid l) i p (u *~ u /~ p))
  else if p <~ n0 then None
  else Some (with_load l (d_blown l) (d_v l) (d_valid l) i p (d_r l)).
(** calculateConstantPowerLoad :246-282. *)
Definition cp_calc (l : load) : option load :=
  if negb (d_valid l) then Some l
  else match d_oc l, d_op l with
       | Some i, _ => if n0 <=~ i then cp_power (d_v l *~ i) l else None
       | None, Some p => if n0 <=~ p then cp_power p l else None
       | None, None => match d_mode l with
                       | Off => Some l
                       | On => cp_power (d_norm l) l
                       | Standby => cp_power (d_stby l) l
                       end
       end.
(** step: ResistiveLoad.cpp:236-255, ConstantPowerLoad.cpp:224-239. *)
Definition load_step (v : T) (l : load) : option load :=
  let l := load_begin v l in if d_cp l then cp_calc l else resist_calc l.
(** updateFuse, UserLoadBase.cpp:383-393. *)
Definition update_fuse (v : T) (l : load) : load * bool :=
  if (n0 <~ d_fuse l) && negb (d_blown l) && (d_fuse l <~ v /~ nmax (d_r l) neps)
  then (with_load l true (d_v l) (d_valid l) (d_i l) (d_p l) (d_r l), true)
  else (l, false).
(** resetFuse, UserLoadBase.hh:448-450. *)
Definition reset_fuse (l : load) : load :=
  with_load l false (d_v l) (d_valid l) (d_i l) (d_p l) (d_r l).

(** ** GunnsElectUserLoad *)
Record uload := mkuload {
  u_frac : T; u_period : T; u_timer : T;       (* mDutyCycleFraction, mDutyCyclePeriod, mDutyCycleTimer *)
  u_load : load
}.
(** stepDutyCycle, GunnsElectUserLoad.cpp:124-137. *)
Definition duty_step (dt : T) (u : uload) : uload :=
  if n0 <~ u_period u then
    let t := u_timer u +~ dt in
    let t := if u_period u <~ t then n0 else t in
    mkuload (u_frac u) (u_period u) t
            (with_mode (u_load u) (if u_frac u <~ t /~ u_period u then Off else On))
  else u.
Definition with_uload (u : uload) (l : load) : uload := mkuload (u_frac u) (u_period u) (u_timer u) l.

(** ** GunnsShortUtil *)
Record short := mkshort {
  h_cpow : option T; h_ccur : option T; h_ipow : option T; h_icur : option T; h_res : option T;  (* the malfunctions *)
  h_g : T; h_pcur : T; h_ppow : T              (* mShortConductance, mPreviousCurrent, mPreviousPower *)
}.
(** computeShort, GunnsShortUtil.cpp:151-197. *)
Definition short_step (v : T) (h : short) : short :=
  let g :=
    match h_cpow h with
    | Some p => nabs p /~ nmax (v *~ v) neps
    | None =>
    match h_ccur h with
    | Some i => nabs i /~ nmax (nabs v) neps
    | None =>
    match h_ipow h with
    | Some p => if negb (nabs p ==~ h_ppow h) then nabs p /~ nmax (v *~ v) neps else h_g h
    | None =>
    match h_icur h with
    | Some i => if negb (nabs i ==~ h_pcur h) then nabs i /~ nmax (nabs v) neps else h_g h
    | None =>
    match h_res h with
    | Some r => n1 /~ nmax r neps
    | None => n0
    end end end end end in
  mkshort (h_cpow h) (h_ccur h) (h_ipow h) (h_icur h) (h_res h) g
          (match h_icur h with Some i => i | None => n0 end)
          (match h_ipow h with Some p => p | None => n0 end).

(** ** GunnsElectUserLoadSwitch *)
Record lsw := mklsw {
  w_b : @base T;
  w_ground : bool;                             (* port 1 is on the ground node *)
  w_sw : @sw T; w_loads : list uload; w_short : short;
  w_ref : T;                                   (* mLoadsPowerRefV *)
  w_v : T; w_p : T;                            (* mLoadsVoltage, mLoadsPower *)
  w_ov : bool; w_ovv : T                       (* mLoadsOverrideActive, mLoadsOverrideVoltage *)
}.
Definition override_g : T := ndec 1 8.         (* mLoadsOverrideG *)
(** The loads' part of updateState, :230-237: the loads stepped with the voltage and their conductance. *)
Fixpoint loads_step (v : T) (l : list uload) (g : T) : option (list uload * T) :=
  match l with
  | [] => Some ([], g)
  | u :: l =>
      match load_step v (u_load u) with
      | None => None
      | Some d =>
          match loads_step v l (g +~ n1 /~ nmax neps (d_r d)) with
          | None => None
          | Some (l, g) => Some (with_uload u d :: l, g)
          end
      end
  end.
(** updateState :209-262: the new state and mEffectiveConductivity. *)
Definition lsw_update (w : lsw) : option (lsw * T) :=
  let s := if w_ov w then sapply (w_sw w) (SCommand false) else w_sw w in
  let s := Trip.update_state true s in
  let has := negb (Nat.eqb (length (w_loads w)) 0) in
  let v := if w_ov w then w_ovv w
           else if has && s_closed s && (n0 <=~ b_flux (w_b w))
           then nmax n0 (b_p0 (w_b w) -~ b_flux (w_b w) /~ conductance s)
           else n0 in
  match loads_step v (w_loads w) eps100 with
  | None => None
  | Some (l, g) =>
      let run := s_closed s && negb (w_ov w) in
      let h := if run then short_step v (w_short w) else w_short w in
      let g := if run then g +~ h_g h else g in
      let eff := if s_closed s
                 then let r := n1 /~ conductance s in
                      n1 /~ (if has then r +~ n1 /~ g else if w_ground w then BasicLinks.conductance_limit else r)
                 else n0 in
      Some (mklsw (w_b w) (w_ground w) s l h (w_ref w) v (w_p w) (w_ov w) (w_ovv w), eff)
  end.
Definition with_wb (w : lsw) (b : base) : lsw :=
  mklsw b (w_ground w) (w_sw w) (w_loads w) (w_short w) (w_ref w) (w_v w) (w_p w) (w_ov w) (w_ovv w).
(** buildConductance :268-282 and buildSource :288-296. *)
Definition override_adm (b : @base T) : base :=
  if negb (b_a0 b ==~ n0) || negb (b_a3 b ==~ override_g)
  then mkbase (b_p0 b) (b_p1 b) n0 n0 n0 override_g (b_w0 b) (b_w1 b) true
              (b_flux b) (b_drop b) (b_power b) (b_malf b) (b_malfv b)
  else b.
Definition lsw_build (g : T) (w : lsw) : lsw :=
  let b := if w_ov w then override_adm (w_b w) else set_adm (w_b w) g in
  with_wb w (with_src b n0 (if w_ov w then w_ovv w *~ b_a3 b else n0)).
(** GunnsBasicConductor::step :196-215, which minorStep runs. *)
Definition lsw_minor (w : lsw) : option lsw :=
  match lsw_update w with
  | None => None
  | Some (w, eff) =>
      let g := if b_malf (w_b w) then eff *~ (n1 -~ b_malfv (w_b w)) else eff in
      Some (lsw_build (limit_range n0 g BasicLinks.conductance_limit) w)
  end.
(** step :193-199. *)
Definition lsw_step (dt : T) (w : lsw) : option lsw :=
  lsw_minor (mklsw (w_b w) (w_ground w) (w_sw w) (map (duty_step dt) (w_loads w)) (w_short w) (w_ref w)
                   (w_v w) (w_p w) (w_ov w) (w_ovv w)).
(** computeFlux :398-408 and GunnsBasicConductor.cpp:249-259, on the drop set before. *)
Definition plain_flux (b : @base T) : T :=
  if nabs (b_drop b) <~ nmax (b_p0 b) (b_p1 b) *~ eps100 then n0 else b_drop b *~ b_a0 b.
Definition lsw_flux (w : lsw) : lsw :=
  let b := w_b w in
  if w_ov w then
    let b := with_drop b (nopp (b_p1 b)) in
    with_wb w (if w_ground w then b else with_flux b (b_drop b *~ b_a3 b +~ b_w1 b))
  else with_wb w (with_flux b (plain_flux b)).
(** The fuses at confirmSolutionAcceptable :319-324; [or] skips the loads after the first that blows. *)
Fixpoint fuses (v : T) (l : list uload) : list uload * bool :=
  match l with
  | [] => ([], false)
  | u :: l =>
      let (d, blows) := update_fuse v (u_load u) in
      if blows then (with_uload u d :: l, true)
      else let (l, b) := fuses v l in (with_uload u d :: l, b)
  end.
Inductive verdict := Confirm | Delay | Reject.
(** confirmSolutionAcceptable :308-342; first its part :328-337 on the switch. *)
Definition lsw_trip (k : Z) (w : lsw) : lsw * verdict :=
  let w := lsw_flux (with_wb w (with_drop (w_b w) (delta (w_b w)))) in
  let f := b_flux (w_b w) in
  let s := update_flow f f (b_p0 (w_b w)) k false (w_sw w) in
  (mklsw (w_b w) (w_ground w) s (w_loads w) (w_short w) (w_ref w) (w_v w) (w_p w) (w_ov w) (w_ovv w),
   if s_wait s then Delay else if s_just s then Reject else Confirm).
Definition lsw_confirm (k : Z) (w : lsw) : lsw * verdict :=
  if (0 <? k)%Z then
    let (l, trips) := if (1 =? k)%Z then fuses (b_p0 (w_b w)) (w_loads w) else (w_loads w, false) in
    let w := mklsw (w_b w) (w_ground w) (w_sw w) l (w_short w) (w_ref w) (w_v w) (w_p w) (w_ov w) (w_ovv w) in
    if trips then (w, Reject) else lsw_trip k w
  else (w, Delay).
(** computePower :420-441. *)
Definition lsw_power (w : lsw) : lsw :=
  let b := w_b w in
  let '(b, p) :=
    if w_ov w then
      if w_ground w then
        let p := fold_left (fun s u => s +~ d_p (u_load u)) (w_loads w) n0 in
        (with_flux (with_power b p) (p /~ nmax (w_ovv w) neps), p)
      else (with_power b (b_flux b *~ b_p1 b), b_flux b *~ b_p1 b)
    else
      let b := compute_power b in
      let p := nopp (b_power b) -~ s_power (w_sw w) in
      (b, if negb (n0 ==~ w_ref w) && (n0 <~ w_v w) then p *~ (w_ref w /~ w_v w) else p) in
  mklsw b (w_ground w) (w_sw w) (w_loads w) (w_short w) (w_ref w) (w_v w) p (w_ov w) (w_ovv w).
(** GunnsBasicConductor::computeFlows :237-244. *)
Definition lsw_flows (w : lsw) : lsw :=
  lsw_power (lsw_flux (with_wb w (with_drop (w_b w) (delta (w_b w))))).
(** setLoadsOverride, GunnsElectUserLoadSwitch.hh:237-241, and a command to the switch. *)
Definition set_override (a : bool) (v : T) (w : lsw) : lsw :=
  mklsw (w_b w) (w_ground w) (w_sw w) (w_loads w) (w_short w) (w_ref w) (w_v w) (w_p w) a v.

(** ** GunnsElectSelector *)
Record sel := mksel {
  e_n : nat;                                   (* mNumPorts *)
  e_def : T; e_sel : Z; e_eff : T;             (* mDefaultConductance, mSelector, mEffectiveConductance *)
  e_last : Z; e_adm : list T; e_upd : bool;    (* mLastConnectedPort, mAdmittanceMatrix, mAdmittanceUpdate *)
  e_malf : bool; e_malfv : T;                  (* mMalfBlockageFlag, mMalfBlockageValue *)
  e_pot : list T; e_drop : T; e_flux : T       (* mPotentialVector, mPotentialDrop, mFlux *)
}.
(** getConnectedPort :351-358. *)
Definition connected (e : sel) : nat :=
  if (e_sel e <? 1)%Z || (Z.of_nat (e_n e) <=? e_sel e)%Z then 0 else Z.to_nat (e_sel e).
Definition with_e (e : sel) (eff : T) (last : Z) (adm : list T) (upd : bool) : sel :=
  mksel (e_n e) (e_def e) (e_sel e) eff last adm upd (e_malf e) (e_malfv e) (e_pot e) (e_drop e) (e_flux e).
(** step :257-270. *)
Definition sel_eff (e : sel) : T :=
  let g := if e_malf e then e_def e *~ limit_range n0 (n1 -~ e_malfv e) n1 else e_def e in
  if g <~ eps100 then n0 else nmin g BasicLinks.conductance_limit.
(** clearAdmittance :279-288. *)
Definition sel_clear (e : sel) : sel :=
  let port := Z.of_nat (connected e) in
  with_e e (e_eff e) port
    (if (port =? e_last e)%Z then e_adm e else repeat n0 (e_n e * e_n e)) (e_upd e).
Fixpoint set_nth (l : list T) (i : nat) (x : T) : list T :=
  match l, i with
  | [], _ => []
  | _ :: l, O => x :: l
  | y :: l, S i => y :: set_nth l i x
  end.
(** buildAdmittance :293-312. *)
Definition sel_build (e : sel) : sel :=
  let port := connected e in
  let g := if Nat.ltb 0 port then e_eff e else n0 in
  if n0 <~ nabs (nth 0 (e_adm e) n0 -~ g) then
    let a := set_nth (e_adm e) 0 g in
    let a := set_nth a port (nopp g) in
    let a := set_nth a (port * e_n e) (nopp g) in
    let a := set_nth a (port * e_n e + port) g in
    with_e e (e_eff e) (e_last e) a true
  else e.
(** step :250-274. *)
Definition sel_step (e : sel) : sel :=
  sel_build (sel_clear (with_e e (sel_eff e) (e_last e) (e_adm e) (e_upd e))).
(** computeFlows :319-327 and computeFlux :332-343; the flux goes from port 0 to the connected port. *)
Definition sel_flows (e : sel) : sel :=
  let p0 := nth 0 (e_pot e) n0 in let p1 := nth (connected e) (e_pot e) n0 in
  let drop := p0 -~ p1 in
  let flux := if nabs drop <~ nmax p0 p1 *~ eps100 then n0 else drop *~ nth 0 (e_adm e) n0 in
  mksel (e_n e) (e_def e) (e_sel e) (e_eff e) (e_last e) (e_adm e) (e_upd e) (e_malf e) (e_malfv e) (e_pot e)
        drop flux.
(** needAdmittanceUpdate, GunnsBasicLink.cpp:459-464. *)
Definition sel_poll (e : sel) : sel * bool :=
  (with_e e (e_eff e) (e_last e) (e_adm e) false, e_upd e).
(** initialize :159-196 for accepted data, with the vectors of GunnsBasicLink.cpp:325-362 zeroed. *)
Definition sel_init (n : nat) (def : T) (s : Z) : option sel :=
  if Nat.ltb n 2 || (def <~ n0) || (s <? 0)%Z || (Z.of_nat n - 1 <? s)%Z then None
  else Some (mksel n def s n0 (-1) (repeat n0 (n * n)) false false n0 (repeat n0 n) n0 n0).
(** What a user and the network do to it. *)
Inductive sel_event :=
| ESelect (s : Z)                              (* setSelector *)
| EDefault (g : T)                             (* setDefaultConductance *)
| EBlock (malf : bool) (v : T)                 (* setMalfBlockage *)
| EPot (p : list T)                            (* receivePotentials *)
| EStep
| EFlows.
Definition sel_apply (e : sel) (ev : sel_event) : sel :=
  match ev with
  | ESelect s => mksel (e_n e) (e_def e) s (e_eff e) (e_last e) (e_adm e) (e_upd e) (e_malf e) (e_malfv e)
                       (e_pot e) (e_drop e) (e_flux e)
  | EDefault g => mksel (e_n e) g (e_sel e) (e_eff e) (e_last e) (e_adm e) (e_upd e) (e_malf e) (e_malfv e)
                        (e_pot e) (e_drop e) (e_flux e)
  | EBlock b v => mksel (e_n e) (e_def e) (e_sel e) (e_eff e) (e_last e) (e_adm e) (e_upd e) b v
                        (e_pot e) (e_drop e) (e_flux e)
  | EPot p => mksel (e_n e) (e_def e) (e_sel e) (e_eff e) (e_last e) (e_adm e) (e_upd e) (e_malf e) (e_malfv e)
                    p (e_drop e) (e_flux e)
  | EStep => sel_step e
  | EFlows => sel_flows e
  end.
End LOADS.
Arguments load : clear implicits.
Arguments uload : clear implicits.
Arguments short : clear implicits.
Arguments lsw : clear implicits.
Arguments sel : clear implicits.
Arguments sel_event : clear implicits.
