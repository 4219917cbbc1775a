(** The power bus with a list of user loads.
    Source: /repo/aspects/electrical/PowerBus/PowerBusElect.cpp:240-474; the loads are those of UserLoad.v.

    The plug is represented by whether the bus is sealed in the step. *)
From Coq Require Import List Bool ZArith.
From Verif Require Import Num Loops MathUtil BasicLinks Trip UserLoad.
Import ListNotations.

Section BUS.
Context {T : Type} {N : Num T}.
(** mMaxConductance, the loads, mActiveResLoadsConductance, mCPowerLoadsConductance,
    mActiveCPowerLoadsConductance, mAdmittanceMatrix[0]. *)
Record pbus := mkpb { b_max : T; b_loads : list (load T); b_res : T; b_cp : T; b_cpact : T; b_adm : T }.
(** initialize with validateData, :185-234 and :269-297: the configured least conductance [least] is not
    used, the link's own is 1e-8 from then on; a new link has no conductance. *)
Definition min_cond : T := ndec 1 (-8).
Definition pb_init (least most : T) (l : list (load T)) : option pbus :=
  if match l with [] => true | _ => false end || (most <=~ n0) then None else Some (mkpb most l n0 n0 n0 n0).
(** The loads in step, :338-346: the loads stepped, conductance of the resistive ones and power of the others. *)
Fixpoint pb_loads (v : T) (l : list (load T)) (g p : T) : option (list (load T) * T * T) :=
  match l with
  | [] => Some ([], g, p)
  | d :: r =>
      match load_step v d with
      | None => None
      | Some d =>
          let '(g, p) := if d_cp d then (g, p +~ d_p d)
                         else if is_in_range neps (d_r d) (n1 /~ min_cond) then (g +~ n1 /~ d_r d, p) else (g, p) in
          match pb_loads v r g p with Some (r, g, p) => Some (d :: r, g, p) | None => None end
      end
  end.
(** checkResLoadConductance and checkCPLoadConductance, :427-463: limited, active, whether changed. *)
Definition limited (most g : T) : T := if most <~ g then most else if g <~ min_cond then n0 else g.
Definition activate (act g : T) : T * bool := if neps <~ nabs (act -~ g) then (g, true) else (act, false).
(** The addition of :365. *)
Definition bus_leak : T := neps /~ ndec 1 (-7).
(** step, :319-366: the new bus and whether the admittance is to be updated. *)
Definition pb_step (v : T) (sealed : bool) (b : pbus) : option (pbus * bool) :=
  match (if sealed then Some (b_loads b, n0, n0) else pb_loads v (b_loads b) n0 n0) with
  | None => None
  | Some (l, g, p) =>
      let '(res, u1) := activate (b_res b) (limited (b_max b) g) in
      let cp := limited (b_max b) (if neps <~ v then p /~ (v *~ v) else b_cp b) in
      let '(cpact, u2) := activate (b_cpact b) cp in
      Some (mkpb (b_max b) l res cp cpact (n0 +~ res +~ cpact +~ bus_leak), u1 || u2)
  end.
(** computeFlows, :384-390. *)
Definition pb_flux (v : T) (b : pbus) : T := b_adm b *~ v.
Definition pb_power (v : T) (b : pbus) : T := pb_flux v b *~ v.
Fixpoint pb_run (us : list (T * bool)) (b : pbus) : option pbus :=
  match us with
  | [] => Some b
  | (v, s) :: r => match pb_step v s b with Some (b, _) => pb_run r b | None => None end
  end.
End BUS.
Arguments pbus T : clear implicits.
