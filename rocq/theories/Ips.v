(** The internal power supply, which draws its load from one of several inputs.
    Source: /repo/aspects/electrical/IPS/GunnsElectIps.cpp.

    Sources are numbered from zero; [None] is INVALID_SOURCE.  [ok i] is whether input [i] may be used: not
    failed, not all failed, and commanded on if the command is used.  The admittance matrix, of which only the
    diagonal is ever written, is given by the active conductances.  Displayed voltages and currents of the inputs,
    heat and messages are left out. *)
From Coq Require Import List Bool Arith.
From Verif Require Import Num MathUtil.
Import ListNotations.

Section IPS.
Context {T : Type} {N : Num T}.
(** mPotentialOnTolerance, mUnderVoltageLimit, mBackUpVoltageThreshold, mBackupVoltageMin and Max,
    mUnselectedInputConductance, mConductanceTolerance, mNumberOfVoltageSwitchesInASolution,
    mBackUpPowerImplemented. *)
Record ipc := mkipc { z_tol : T; z_uv : T; z_bt : T; z_bmin : T; z_bmax : T; z_unsel : T; z_ctol : T; z_most : nat; z_backup : bool }.
(** The loops over the inputs from number [i] on: the source so far and its voltage. *)
Fixpoint scan (tol : T) (ok : nat -> bool) (good : T -> bool) (vs : list T) (i : nat) (s : option nat * T) : option nat * T :=
  match vs with
  | [] => s
  | v :: r => scan tol ok good r (S i) (if ok i && (good v && (tol <~ v -~ snd s)) then (Some i, v) else s)
  end.
(** getVoltageSourceToUseWithoutBackup, :449-484. *)
Definition no_backup (c : ipc) (ok : nat -> bool) (active : option nat) (vs : list T) : option nat :=
  let s := match active with
           | None => (None, n0)
           | Some a => if ok a && negb (nth a vs n0 <~ z_uv c) then (Some a, nth a vs n0) else (None, n0)
           end in
  fst (scan (z_tol c) ok (fun v => z_uv c <=~ v) vs 0 s).
(** getVoltagePrimarySourceGreaterThanBackupThreshold, :352-368; the backup is the last. *)
Definition above_backup (c : ipc) (ok : nat -> bool) (vs : list T) : option nat :=
  fst (scan (z_tol c) ok (fun v => z_bt c <~ v) (removelast vs) 0 (None, n0)).
(** getVoltagePrimarySourceGreaterUnderVoltageLimit, :375-402. *)
Definition above_limit (c : ipc) (ok : nat -> bool) (vs : list T) : option nat :=
  let s := scan (z_tol c) ok (fun v => z_uv c <~ v) (removelast vs) 0 (None, n0) in
  let b := (length vs - 1)%nat in
  match fst s with
  | None => None
  | Some _ => if ok b && (z_tol c <~ nth b vs n0 -~ snd s) then Some b else fst s
  end.
(** getVoltageBackupWithinRange, :409-421. *)
Definition backup_in_range (c : ipc) (ok : nat -> bool) (vs : list T) : option nat :=
  let b := (length vs - 1)%nat in
  if ok b && is_in_range (z_bmin c) (nth b vs n0) (z_bmax c) then Some b else None.
(** getVoltageSourceToUseWithBackup, :427-442. *)
Definition with_backup (c : ipc) (ok : nat -> bool) (vs : list T) : option nat :=
  match above_backup c ok vs with
  | Some s => Some s
  | None => match above_limit c ok vs with Some s => Some s | None => backup_in_range c ok vs end
  end.
(** mActivePowerSource, mVoltageSwitches, mPowerValid. *)
Record ips := mkips { s_active : option nat; s_switches : nat; s_valid : bool }.
(** calculateFlow, :489-542. *)
Definition calc_flow (c : ipc) (vs : list T) (src : option nat) (s : ips) : ips :=
  match src with
  | Some a => mkips (if n0 <~ nth a vs n0 then Some a else s_active s) (s_switches s) (z_uv c <~ nth a vs n0)
  | None => mkips None (s_switches s) false
  end.
Definition same (a b : option nat) : bool := match a, b with None, None => true | Some x, Some y => Nat.eqb x y | _, _ => false end.
(** confirmSolutionAcceptable of a converged step, :609-664: the state and whether rejected. *)
Definition ips_confirm (c : ipc) (ok : nat -> bool) (vs : list T) (s : ips) : ips * bool :=
  let src := if s_switches s <? z_most c then (if z_backup c then with_backup c ok vs else no_backup c ok (s_active s) vs) else s_active s in
  let t := calc_flow c vs src s in
  if same (s_active s) (s_active t) then (t, existsb (fun v => v <~ n0) vs) else (mkips (s_active t) (S (s_switches t)) (s_valid t), true).
(** Confirmations of one solution, with the number of rejections. *)
Definition ips_confirms (c : ipc) (us : list ((nat -> bool) * list T)) (s : ips * nat) : ips * nat :=
  fold_left (fun s u => let r := ips_confirm c (fst u) (snd u) (fst s) in (fst r, if snd r then S (snd s) else snd s)) us s.
(** updateInputConductance, :332-345, of load [p]. *)
Definition conductances (c : ipc) (p : T) (active : option nat) (vs : list T) : list T :=
  map (fun x => if same active (Some (fst x)) && (neps <~ snd x) then p /~ (snd x *~ snd x) else z_unsel c) (combine (seq 0 (length vs)) vs).
(** updateAdmittance, :545-554: the active conductances and mAdmittanceUpdate. *)
Definition update_adm (c : ipc) (act new : list T) : list T * bool :=
  (map (fun x => if z_ctol c <~ nabs (fst x -~ snd x) then snd x else fst x) (combine act new),
   existsb (fun x => z_ctol c <~ nabs (fst x -~ snd x)) (combine act new)).
(** mAdmittanceMatrix[k]. *)
Definition adm_at (act : list T) (k : nat) : T := if (k mod S (length act) =? 0)%nat then nth (k / S (length act)) act n0 else n0.
(** computeFlows, :564-572: mFlux and mPower. *)
Definition ips_flux (act vs : list T) : T := fold_left (fun f x => f +~ snd x *~ adm_at act (fst x)) (combine (seq 0 (length vs)) vs) n0.
Definition ips_power (act vs : list T) : T := fold_left (fun f x => f +~ snd x *~ adm_at act (fst x) *~ snd x) (combine (seq 0 (length vs)) vs) n0.
(** updatePowerLoad, GunnsElectIps.hh:410-416. *)
Definition power_load (extra on one two : T) : T := if n0 <~ extra then extra else on +~ one +~ two.
End IPS.
Arguments ipc T : clear implicits.
