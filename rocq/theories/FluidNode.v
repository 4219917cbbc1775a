(** Fluid nodes, and the flows of fluid links between them.
    Source: /repo/core/GunnsFluidNode.{cpp,hh}, GunnsBasicNode.{cpp,hh},
    GunnsFluidUtils.cpp:213-244, GunnsFluidConductor.cpp:317-417,
    GunnsFluidLink.cpp:202-256, 370-382.

    Simplifications: trace compounds, names, messages, the init flag and the terms of
    GunnsBasicNode that a fluid node does not use are left out.  [sq] is std::sqrt and
    [pw] std::pow.  [Throws] is an exception leaving the function; the state it leaves
    behind is not described. *)
From Coq Require Import List Arith Bool ZArith.
From Verif Require Import Num MathUtil Fluid.
Import ListNotations.

Section NODE.
Context {T : Type} {N : Num T}.
Variable sq : T -> T.
Variable pw : T -> T -> T.

Record fnode := mkfnode {
  n_content : fluid T; n_inflow : fluid T; n_outflow : fluid T;   (* mContent, mInflow, mOutflow *)
  n_vol : T; n_pvol : T;                     (* mVolume, mPreviousVolume *)
  n_heat : T;                                (* mInflowHeatFlux *)
  n_netheat : T;                             (* mNetHeatFlux *)
  n_undamped : T;                            (* mUndampedHeatFlux *)
  n_dampmass : T;                            (* mThermalDampingMass *)
  n_dampheat : T;                            (* mThermalDampingHeat *)
  n_expdt : T; n_expsf : T;                  (* mExpansionDeltaT, mExpansionScaleFactor *)
  n_pp : T; n_pt : T;                        (* mPreviousPressure, mPreviousTemperature *)
  n_merr : T;                                (* mMassError *)
  n_pcorr : T; n_gain : T;                   (* mPressureCorrection, mCorrectGain *)
  n_in : T; n_out : T; n_sched : T;          (* mInfluxRate, mOutfluxRate, mScheduledOutflux *)
  n_net : T; n_thru : T                      (* mNetFlux, mFluxThrough *)
}.

(** GunnsFluidUtils.cpp:213-244. *)
Definition isentropic_t (sf p1 p2 : T) (f : fluid T) : T :=
  let t := f_t f in
  if (match f_phase f with Some ph => Nat.eqb ph 0 | None => false end) && (n0 <~ p1) then
    let ratio := p2 /~ p1 in
    let g := f_gam f in
    if (neps <~ ratio) && (neps <~ g) then
      t +~ sf *~ (t *~ pw ratio ((g -~ n1) /~ g) -~ t)
    else t
  else t.

(** GunnsFluidNode.hh:300-303. *)
Definition mass_error (c : fluid T) (vol : T) : T := f_mass c -~ f_rho c *~ vol.
(** GunnsFluidNode.hh:308-311. *)
Definition node_mass (c : fluid T) (vol : T) : fluid T := set_mass c (f_rho c *~ vol).

(** GunnsFluidNode.cpp:378-393 with GunnsBasicNode.hh:626-631. *)
Definition reset_flows (n : fnode) : outcome fnode :=
  match set_state (n_outflow n) (n_content n) with
  | Ok out =>
      Ok (mkfnode (n_content n) (reset_state (n_inflow n)) out (n_vol n) (n_pvol n) n0 (n_netheat n)
           (n_undamped n) (n_dampmass n) (n_dampheat n) (n_expdt n) (n_expsf n) (f_p (n_content n))
           (n_pt n) (n_merr n) (n_pcorr n) (n_gain n) n0 n0 n0 (n_net n) (n_thru n))
  | Throws => Throws
  | Ub => Ub
  end.
(** GunnsFluidNode.cpp:346-350. *)
Definition set_potential (n : fnode) (p : T) : fnode :=
  mkfnode (set_pressure (n_content n) p) (n_inflow n) (n_outflow n) (n_vol n) (n_pvol n)
    (n_heat n) (n_netheat n) (n_undamped n) (n_dampmass n) (n_dampheat n) (n_expdt n)
    (n_expsf n) (n_pp n) (n_pt n) (n_merr n) (n_pcorr n) (n_gain n) (n_in n) (n_out n)
    (n_sched n) (n_net n) (n_thru n).
(** GunnsFluidNode.cpp:484-496: the exception of addState is caught. *)
Definition collect_influx (n : fnode) (w : T) (f : fluid T) : fnode :=
  mkfnode (n_content n) (fst (add_state sq (n_inflow n) f w)) (n_outflow n) (n_vol n) (n_pvol n)
    (n_heat n +~ w *~ f_h f) (n_netheat n) (n_undamped n) (n_dampmass n) (n_dampheat n) (n_expdt n)
    (n_expsf n) (n_pp n) (n_pt n) (n_merr n) (n_pcorr n) (n_gain n) (n_in n +~ w) (n_out n)
    (n_sched n) (n_net n) (n_thru n).
(** GunnsBasicNode.hh:618-621, 595-598, GunnsFluidNode.hh:206-219. *)
Definition collect_outflux (n : fnode) (w : T) : fnode :=
  mkfnode (n_content n) (n_inflow n) (n_outflow n) (n_vol n) (n_pvol n)
    (n_heat n) (n_netheat n) (n_undamped n) (n_dampmass n) (n_dampheat n) (n_expdt n)
    (n_expsf n) (n_pp n) (n_pt n) (n_merr n) (n_pcorr n) (n_gain n) (n_in n) (n_out n +~ w)
    (n_sched n) (n_net n) (n_thru n).
Definition schedule_outflux (n : fnode) (w : T) : fnode :=
  mkfnode (n_content n) (n_inflow n) (n_outflow n) (n_vol n) (n_pvol n)
    (n_heat n) (n_netheat n) (n_undamped n) (n_dampmass n) (n_dampheat n) (n_expdt n)
    (n_expsf n) (n_pp n) (n_pt n) (n_merr n) (n_pcorr n) (n_gain n) (n_in n) (n_out n)
    (n_sched n +~ w) (n_net n) (n_thru n).
Definition collect_heat (n : fnode) (q : T) : fnode :=
  mkfnode (n_content n) (n_inflow n) (n_outflow n) (n_vol n) (n_pvol n)
    (n_heat n +~ q) (n_netheat n) (n_undamped n) (n_dampmass n) (n_dampheat n) (n_expdt n)
    (n_expsf n) (n_pp n) (n_pt n) (n_merr n) (n_pcorr n) (n_gain n) (n_in n) (n_out n)
    (n_sched n) (n_net n) (n_thru n).
(** GunnsFluidNode.hh:337-340. *)
Definition overflowing (n : fnode) (dt : T) : bool := f_mole (n_content n) <~ n_sched n *~ dt.

(** The amounts of GunnsFluidNode.cpp:544-593. *)
Definition out_moles (n : fnode) (dt : T) : T := nmin (n_sched n *~ dt) (f_mole (n_content n)).
Definition out_mass (n : fnode) (dt : T) : T := out_moles n dt *~ f_mw (n_content n).
Definition per_time (m dt : T) : T := if n0 <~ dt then m /~ dt else n0.
Definition in_moles (n : fnode) (dt : T) : T :=
  if neps <~ f_mw (n_inflow n) then nmax (n_in n) n0 *~ dt /~ f_mw (n_inflow n) else n0.
Definition thru_mass (n : fnode) (dt : T) : T :=
  nmin (in_moles n dt) (n_sched n *~ dt -~ out_moles n dt) *~ f_mw (n_inflow n).
Definition net_heat (n : fnode) (dt : T) : T :=
  n_heat n -~ (per_time (out_mass n dt) dt *~ f_h (n_content n) +~
               per_time (thru_mass n dt) dt *~ f_h (n_inflow n)).

(** GunnsFluidNode.cpp:604-707: a node with volume.  The new contents, the damping
    heat and the expansion's temperature change. *)
Definition integrate_cap (n : fnode) (dt : T) : outcome (fluid T * T * T) :=
  let c := n_content n in
  let inm := n_in n *~ dt in
  let last := f_mass c in
  let old := nmax n0 (last -~ out_mass n dt) in
  let new := old +~ inm -~ thru_mass n dt in
  let e := last *~ f_h c +~ net_heat n dt *~ dt in
  let (new', h) := if new <~ neps then (neps, f_h c)
                   else if e <~ neps then (new, f_h c) else (new, e /~ new) in
  let expdt := isentropic_t (n_expsf n) (n_pp n) (f_p c) c -~ f_t c in
  let mixed :=
    if neps <~ nabs inm then
      let r := if neps <=~ old +~ inm -~ thru_mass n dt
               then mix_masses c old (n_inflow n) (inm -~ thru_mass n dt)
               else mix_masses c n0 (n_inflow n) neps in
      match r with Ok (c', _) => Ok c' | Throws => Throws | Ub => Ub end
    else Ok (set_mass c new') in
  match mixed with
  | Ok c' =>
      let (h, damp) :=
        if n0 <~ n_dampmass n then
          let hm := compute_h c' (f_t c') +~ n_undamped n *~ dt /~ new' in
          let hd := (h -~ hm) *~ new' /~ (new' +~ n_dampmass n) in
          (hm +~ hd, if neps <~ dt then (h -~ hm -~ hd) *~ new' /~ dt else n0)
        else (h, n0) in
      let h := h +~ old *~ expdt *~ f_cp c' /~ new' in
      Ok (set_temperature c' (compute_temperature sq c' h), damp, expdt)
  | Throws => Throws
  | Ub => Ub
  end.
(** GunnsFluidNode.cpp:720-734: a node without volume that something flows into.  The
    pair is the contents and the inflow. *)
Definition integrate_noncap (n : fnode) : outcome (fluid T * fluid T) :=
  let i := set_pressure (n_inflow n) (f_p (n_content n)) in
  let i := set_temperature i (compute_temperature sq i (n_heat n /~ n_in n)) in
  let (fr, norm) := normalize_array (map c_x (f_cs i)) in
  match (if norm then set_mass_fractions i n0 fr else Ok i) with
  | Ok i => match set_state (n_content n) i with
            | Ok c => Ok (c, i) | Throws => Throws | Ub => Ub end
  | Throws => Throws
  | Ub => Ub
  end.
(** addState on a PolyFluid where the exception is not caught. *)
Definition add_or_throw (f src : fluid T) (w : T) : outcome (fluid T) :=
  let r := add_state sq f src w in if snd r then Throws else Ok (fst r).

Definition obind {A B} (o : outcome A) (k : A -> outcome B) : outcome B :=
  match o with Ok a => k a | Throws => Throws | Ub => Ub end.

(** GunnsFluidNode.cpp:535-763. *)
Definition integrate_flows (n : fnode) (dt : T) : outcome fnode :=
  let wc := per_time (out_mass n dt) dt in
  let wt := per_time (thru_mass n dt) dt in
  obind (if n0 <~ wc
         then obind (add_or_throw (reset_state (n_outflow n)) (n_content n) wc) (fun o => Ok (set_flow o wc))
         else Ok (reset_state (n_outflow n)))
    (fun out =>
  obind (if n0 <~ n_vol n
         then obind (integrate_cap n dt) (fun r => Ok (fst (fst r), n_inflow n, snd (fst r), snd r))
         else if n0 <~ n_in n
         then obind (integrate_noncap n) (fun r => Ok (fst r, snd r, n0, n0))
         else Ok (n_content n, n_inflow n, n0, n0))
    (fun r =>
  let c := fst (fst (fst r)) in
  obind (if n0 <~ wt then add_or_throw out c wt
         else if wc <=~ n0 then set_state out c else Ok out)
    (fun out =>
  Ok (mkfnode c (snd (fst (fst r))) (set_pressure out (f_p c)) (n_vol n) (n_pvol n) (n_heat n)
        (net_heat n dt) (n_undamped n) (n_dampmass n) (snd (fst r)) (snd r) (n_expsf n) (n_pp n)
        (n_pt n) (mass_error c (n_vol n)) (n_pcorr n) (n_gain n) (n_in n) (n_out n) (n_sched n)
        (n_in n -~ (wc +~ wt)) (nmin (n_in n) (wc +~ wt)))))).

(** GunnsFluidNode.cpp:44, 776-823: the correction and the new gain. *)
Definition err_threshold : T := ndec 1 (-11).
Definition pressure_correction (n : fnode) : T * T :=
  if n0 <~ n_vol n then
    let err := compute_p (n_content n) (f_t (n_content n)) (f_mass (n_content n) /~ n_vol n)
               -~ f_p (n_content n) in
    let g := if err *~ n_pcorr n <~ n0 then n_gain n *~ ndec 5 (-1) else n_gain n *~ ndec 101 (-2) in
    let g := limit_range neps g n1 in
    (if err_threshold <~ nabs err then err *~ g else n0, g)
  else (n0, n_gain n).
Definition correct_pressure (n : fnode) : fnode :=
  let (c, g) := pressure_correction n in
  mkfnode (n_content n) (n_inflow n) (n_outflow n) (n_vol n) (n_pvol n)
    (n_heat n) (n_netheat n) (n_undamped n) (n_dampmass n) (n_dampheat n) (n_expdt n)
    (n_expsf n) (n_pp n) (n_pt n) (n_merr n) c g (n_in n) (n_out n) (n_sched n) (n_net n) (n_thru n).

(** GunnsFluidNode.cpp:294-304, 319-333. *)
Definition with_volume (n : fnode) (c : fluid T) (v pv : T) : fnode :=
  mkfnode c (n_inflow n) (n_outflow n) v pv
    (n_heat n) (n_netheat n) (n_undamped n) (n_dampmass n) (n_dampheat n) (n_expdt n)
    (n_expsf n) (n_pp n) (n_pt n) (n_merr n) (n_pcorr n) (n_gain n) (n_in n) (n_out n)
    (n_sched n) (n_net n) (n_thru n).
Definition init_volume (n : fnode) (v : T) : outcome fnode :=
  if v <~ n0 then Throws else Ok (with_volume n (node_mass (n_content n) v) v v).
Definition set_volume (n : fnode) (v : T) : outcome fnode :=
  if v <~ n0 then Throws
  else if (n0 ==~ v) || (n0 ==~ n_pvol n) then init_volume n v
  else Ok (with_volume n (n_content n) v (n_pvol n)).
(** GunnsFluidNode.cpp:460-476. *)
Definition compression (n : fnode) : T * fnode :=
  let c := n_content n in
  (f_rho c *~ (n_pvol n -~ n_vol n) /~ f_mw c, with_volume n c (n_vol n) (n_vol n)).
End NODE.
Arguments fnode : clear implicits.

(** ** Conductors between nodes *)
Section NET.
Context {T : Type} {N : Num T}.
Variable sq : T -> T.
Variable pw : T -> T -> T.

(** What the flow of a GunnsFluidConductor without internal fluid depends on: its
    ports, the admittance built this step and its potentials. *)
Record fcond := mkfcond { k_from : nat; k_to : nat; k_adm : T; k_p0 : T; k_p1 : T }.
(** GunnsBasicLink.cpp:43. *)
Definition eps100 : T := ndec 100 0 *~ neps.
(** GunnsFluidConductor.cpp:407-417, with getDeltaPotential of GunnsBasicLink. *)
Definition cond_flux (k : fcond) : T :=
  let dp := k_p0 k -~ k_p1 k in
  if nabs dp <~ nmax (k_p0 k) (k_p1 k) *~ eps100 then n0 else dp *~ k_adm k.

Definition upd {A} (i : nat) (g : A -> A) (l : list A) : list A :=
  map (fun q => if Nat.eqb (fst q) i then g (snd q) else snd q) (combine (seq 0 (length l)) l).

(** GunnsFluidConductor.cpp:317-337.  A port on no node of the list is on the
    ground, the last node of the network. *)
Definition compute_flows (ns : list (fnode T)) (k : fcond) : list (fnode T) :=
  let x := cond_flux k in
  if neps <~ x then upd (k_from k) (fun n => schedule_outflux n x) ns
  else if x <~ nopp neps then upd (k_to k) (fun n => schedule_outflux n (nopp x)) ns
  else ns.
(** GunnsFluidLink.cpp:370-382. *)
Definition source_port (ground : nat) (k : fcond) (w : T) : nat :=
  if ((w <~ n0) && negb (Nat.eqb (k_to k) ground)) || ((n0 <~ w) && Nat.eqb (k_from k) ground)
  then k_to k else k_from k.
(** GunnsFluidConductor.cpp:344-401 without internal fluid, GunnsFluidLink.cpp:245-254.
    [None] is a port that is on no node. *)
Definition transport_flows (ground : nat) (ns : list (fnode T)) (k : fcond) : option (list (fnode T)) :=
  match nth_error ns (source_port ground k (cond_flux k)) with
  | None => None
  | Some s =>
      let w := cond_flux k *~ f_mw (n_outflow s) in
      match nth_error ns (source_port ground k w) with
      | None => None
      | Some s =>
          let f := n_outflow s in
          Some (if eps100 <~ w then
                  upd (k_to k) (fun n => collect_influx sq n w f)
                    (upd (k_from k) (fun n => collect_outflux n w) ns)
                else if w <~ nopp eps100 then
                  upd (k_from k) (fun n => collect_influx sq n (nopp w) f)
                    (upd (k_to k) (fun n => collect_outflux n (nopp w)) ns)
                else ns)
      end
  end.
Fixpoint transport_all (ground : nat) (ns : list (fnode T)) (ks : list fcond) : option (list (fnode T)) :=
  match ks with
  | [] => Some ns
  | k :: ks => match transport_flows ground ns k with
               | Some ns => transport_all ground ns ks | None => None end
  end.
Fixpoint all_ok {A} (l : list (outcome A)) : outcome (list A) :=
  match l with
  | [] => Ok []
  | o :: l => match o with
              | Ok a => match all_ok l with Ok r => Ok (a :: r) | Throws => Throws | Ub => Ub end
              | Throws => Throws | Ub => Ub end
  end.
(** A step when no node overflows, see C108 and Gunns.cpp:736-800: the flows of the
    nodes are reset, the solver sets their pressures [ps], the links compute and
    transport their flows, then the nodes integrate, except the ground, which is last
    in the list.  [before_integration] is the state when the links are done. *)
Definition before_integration (ns : list (fnode T)) (ps : list T) (ks : list (fcond))
  : outcome (list (fnode T)) :=
  obind (all_ok (map reset_flows ns)) (fun ns =>
  let ns := zip_with set_potential ns ps in
  match transport_all (length ns - 1) (fold_left compute_flows ks ns) ks with
  | None => Ub
  | Some ns => Ok ns
  end).
Definition flow_pass (ns : list (fnode T)) (ps : list T) (ks : list fcond) (dt : T)
  : outcome (list (fnode T)) :=
  obind (before_integration ns ps ks) (fun ns =>
  obind (all_ok (map (fun n => integrate_flows sq pw n dt) (removelast ns)))
        (fun r => Ok (r ++ skipn (length ns - 1) ns))).
End NET.
Arguments fcond : clear implicits.
