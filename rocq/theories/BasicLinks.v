(** The basic aspect links: conductor, potential, flow controller, external
    demand, source and capacitor, and the flow pass over a network of them.
    Source: /repo/core/GunnsBasicLink.{cpp,hh}, GunnsBasicConductor.{cpp,hh},
    GunnsBasicPotential.{cpp,hh}, GunnsBasicFlowController.cpp,
    GunnsBasicExternalDemand.cpp, GunnsBasicSource.{cpp,hh},
    GunnsBasicCapacitor.{cpp,hh}, GunnsBasicFlowOrchestrator.cpp,
    GunnsBasicNode.{cpp,hh}.

    Simplifications: the port map is a pair of node numbers that stays put during
    a step (setPort and processUserPortCommand are in Links.v); names, messages
    and the validation of the configuration are left out, so the theorems hold for
    unvalidated data too. *)
From Coq Require Import List Arith Bool ZArith.
From Verif Require Import Num Loops MathUtil Links Assembly.
Import ListNotations.

Section LINKS.
Context {T : Type} {N : Num T}.

(** The attributes of GunnsBasicLink used by two-port links. *)
Record base := mkbase {
  b_p0 : T; b_p1 : T;                        (* mPotentialVector *)
  b_a0 : T; b_a1 : T; b_a2 : T; b_a3 : T;    (* mAdmittanceMatrix *)
  b_w0 : T; b_w1 : T;                        (* mSourceVector *)
  b_upd : bool;                              (* mAdmittanceUpdate *)
  b_flux : T; b_drop : T; b_power : T;       (* mFlux, mPotentialDrop, mPower *)
  b_malf : bool; b_malfv : T                 (* mMalfBlockageFlag, mMalfBlockageValue *)
}.

Definition with_pot (b : base) (x y : T) : base :=
  mkbase x y (b_a0 b) (b_a1 b) (b_a2 b) (b_a3 b) (b_w0 b) (b_w1 b) (b_upd b)
         (b_flux b) (b_drop b) (b_power b) (b_malf b) (b_malfv b).
Definition with_src (b : base) (x y : T) : base :=
  mkbase (b_p0 b) (b_p1 b) (b_a0 b) (b_a1 b) (b_a2 b) (b_a3 b) x y (b_upd b)
         (b_flux b) (b_drop b) (b_power b) (b_malf b) (b_malfv b).
Definition with_flux (b : base) (f : T) : base :=
  mkbase (b_p0 b) (b_p1 b) (b_a0 b) (b_a1 b) (b_a2 b) (b_a3 b) (b_w0 b) (b_w1 b) (b_upd b)
         f (b_drop b) (b_power b) (b_malf b) (b_malfv b).
Definition with_drop (b : base) (d : T) : base :=
  mkbase (b_p0 b) (b_p1 b) (b_a0 b) (b_a1 b) (b_a2 b) (b_a3 b) (b_w0 b) (b_w1 b) (b_upd b)
         (b_flux b) d (b_power b) (b_malf b) (b_malfv b).
Definition with_power (b : base) (p : T) : base :=
  mkbase (b_p0 b) (b_p1 b) (b_a0 b) (b_a1 b) (b_a2 b) (b_a3 b) (b_w0 b) (b_w1 b) (b_upd b)
         (b_flux b) (b_drop b) p (b_malf b) (b_malfv b).
Definition with_upd (b : base) (u : bool) : base :=
  mkbase (b_p0 b) (b_p1 b) (b_a0 b) (b_a1 b) (b_a2 b) (b_a3 b) (b_w0 b) (b_w1 b) u
         (b_flux b) (b_drop b) (b_power b) (b_malf b) (b_malfv b).

(** GunnsBasicConductor.cpp:222-229 and GunnsBasicCapacitor.cpp:268-274. *)
Definition set_adm (b : base) (a : T) : base :=
  if n0 <~ nabs (b_a0 b -~ a)
  then mkbase (b_p0 b) (b_p1 b) a (nopp a) (nopp a) a (b_w0 b) (b_w1 b) true
              (b_flux b) (b_drop b) (b_power b) (b_malf b) (b_malfv b)
  else b.

(** GunnsBasicLink.cpp:625-635 with the default ports 0 and 1. *)
Definition delta (b : base) : T := b_p0 b -~ b_p1 b.
(** GunnsBasicLink.hh:560-563. *)
Definition compute_power (b : base) : base := with_power b (nopp (b_flux b) *~ delta b).
(** GunnsBasicLink.cpp:459-464. *)
Definition need_update (b : base) : base * bool := (with_upd b false, b_upd b).

(** GunnsBasicLink.cpp:40, 43. *)
Definition conductance_limit : T := ndec 1 15.
Definition eps100 : T := ndec 100 0 *~ neps.

(** GunnsBasicExternalDemand.hh attributes. *)
Record filter := mkfilter {
  f_minG : T; f_minDp : T; f_gain : T;   (* mFilterMinConductivity, mFilterMinDeltaP, mFilterCapacitanceGain *)
  f_dem : T; f_sup : T; f_dsup : T;      (* mAvgDemand, mAvgSupplyP, mAvgSupplyDeltaP *)
  f_cap : T                              (* mEstimatedCapacitance *)
}.

(** The classes derived from GunnsBasicConductor. *)
Inductive law :=
| Plain
| Controller (malf : bool) (mval cmd : T) (rev : bool)
    (* mMalfFluxFlag, mMalfFluxValue, mFluxCommand, mEnableReverseControl *)
| Potential (sp : T)                     (* mSourcePotential *)
| Demand (sp : T) (f : filter).
Record cond := mkcond {
  c_b : base;
  c_def : T; c_eff : T; c_sys : T;  (* mDefaultConductivity, mEffectiveConductivity, mSystemConductance *)
  c_law : law
}.
Definition with_base (c : cond) (b : base) : cond :=
  mkcond b (c_def c) (c_eff c) (c_sys c) (c_law c).

(** GunnsBasicFlowController.cpp:206-223. *)
Definition controller_eff (b : base) (def : T) (malf : bool) (mval cmd : T) (rev : bool) : T :=
  let command := if malf then mval else cmd in
  let dP := nmax neps (nabs (b_p0 b -~ b_p1 b)) in
  let eff := nmin def (nabs command /~ dP) in
  if (b_p0 b <~ b_p1 b) && negb rev then n0 else eff.

(** GunnsBasicExternalDemand.cpp:217-243. *)
Definition demand_filter (dt flux sp : T) (f : filter) : filter :=
  let dem := ndec 5 (-1) *~ (f_dem f +~ flux) in
  let dem := if nabs dem <~ neps then n0 else dem in
  let d := nopp (f_sup f) in
  let sup := ndec 5 (-1) *~ (f_sup f +~ sp) in
  let d := d +~ sup in
  let cap := if f_minDp f <~ nabs d
             then (n1 -~ f_gain f) *~ f_cap f +~ f_gain f *~ (nopp dem *~ dt /~ d)
             else f_cap f in
  mkfilter (f_minG f) (f_minDp f) (f_gain f) dem sup d cap.
Definition demand_eff (dt : T) (f : filter) : T :=
  if neps <~ dt then nmax (f_cap f /~ dt) (f_minG f) else f_minG f.

(** updateState: GunnsBasicLink.hh:570, the two overrides above. *)
Definition update_state (dt : T) (c : cond) : T * law :=
  match c_law c with
  | Plain => (c_def c, Plain)
  | Controller malf mval cmd rev =>
      (controller_eff (c_b c) (c_def c) malf mval cmd rev, Controller malf mval cmd rev)
  | Potential sp => (c_def c, Potential sp)
  | Demand sp f =>
      let f' := demand_filter dt (b_flux (c_b c)) sp f in (demand_eff dt f', Demand sp f')
  end.

(** GunnsBasicPotential.hh:175-182. *)
Definition build_potential (sp : T) (b : base) : base :=
  let w0 := nopp sp *~ b_a0 b in with_src b w0 (nopp w0).

(** GunnsBasicConductor.cpp:196-215 and GunnsBasicPotential.cpp:183-187. *)
Definition cond_step (dt : T) (c : cond) : cond :=
  let (eff, lw) := update_state dt c in
  let g := if b_malf (c_b c) then eff *~ (n1 -~ b_malfv (c_b c)) else eff in
  let g := limit_range n0 g conductance_limit in
  let b := set_adm (c_b c) g in
  let b := match lw with
           | Potential sp | Demand sp _ => build_potential sp b
           | Plain | Controller _ _ _ _ => b
           end in
  mkcond b (c_def c) eff g lw.

(** GunnsBasicConductor.cpp:249-259; GunnsBasicPotential.hh:187-190 and
    GunnsBasicCapacitor.hh:180-183 (the same line). *)
Definition flux_dead (b : base) : T :=
  let hiP := nmax (b_p0 b) (b_p1 b) in
  if nabs (b_drop b) <~ hiP *~ eps100 then n0 else b_drop b *~ b_a0 b.
Definition flux_src (b : base) : T := b_drop b *~ b_a0 b -~ b_w0 b.

(** GunnsBasicConductor.cpp:237-244, transportFlux left to the flow pass. *)
Definition cond_flows (c : cond) : cond :=
  let b := with_drop (c_b c) (delta (c_b c)) in
  let f := match c_law c with
           | Plain | Controller _ _ _ _ => flux_dead b
           | Potential _ | Demand _ _ => flux_src b
           end in
  with_base c (compute_power (with_flux b f)).

(** GunnsBasicSource.cpp:181-195, GunnsBasicSource.hh:183-187. *)
Definition source_step (s : T) (b : base) : base :=
  let f := if b_malf b then s *~ (n1 -~ b_malfv b) else s in
  with_src (with_flux b f) (nopp f) f.
(** GunnsBasicSource.cpp:200-205. *)
Definition source_flows (b : base) : base := compute_power (with_drop b (delta b)).

(** GunnsBasicCapacitor.cpp:252-279. *)
Definition build_capacitance (dt cap : T) (b : base) : base :=
  let a := if dt <~ neps then cap /~ neps else cap /~ dt in
  let b := set_adm b a in
  let w0 := (b_p0 b -~ b_p1 b) *~ b_a0 b in
  with_src b w0 (nopp w0).
(** GunnsBasicCapacitor.cpp:223-233. *)
Definition cap_flows (b : base) : base :=
  let b := with_drop b (delta b) in
  compute_power (with_flux b (flux_src b)).

(** A link of any of these classes.  A capacitor carries mCapacitance,
    mEditCapacitanceFlag and mEditCapacitance. *)
Inductive blink :=
| Cond (c : cond)
| Source (s : T) (b : base)
| Capacitor (cap : T) (edit : bool) (ecap : T) (b : base).

Definition bbase (l : blink) : base :=
  match l with Cond c => c_b c | Source _ b => b | Capacitor _ _ _ b => b end.
Definition set_base (l : blink) (b : base) : blink :=
  match l with
  | Cond c => Cond (with_base c b)
  | Source s _ => Source s b
  | Capacitor c e v _ => Capacitor c e v b
  end.

(** The virtual step(dt); GunnsBasicCapacitor.cpp:200-216. *)
Definition step (dt : T) (l : blink) : blink :=
  match l with
  | Cond c => Cond (cond_step dt c)
  | Source s b => Source s (source_step s b)
  | Capacitor cap edit ecap b =>
      let cap := if edit then ecap else cap in
      Capacitor cap false ecap (build_capacitance dt cap b)
  end.
(** The virtual minorStep(dt, n): GunnsBasicLink.hh:603,
    GunnsBasicFlowController.cpp:195-198. *)
Definition minor_step (dt : T) (l : blink) : blink :=
  match l with
  | Cond c => match c_law c with Controller _ _ _ _ => Cond (cond_step dt c) | _ => l end
  | _ => l
  end.
(** The virtual computeFlows(dt) without transportFlux. *)
Definition flows (l : blink) : blink :=
  match l with
  | Cond c => Cond (cond_flows c)
  | Source s b => Source s (source_flows b)
  | Capacitor c e v b => Capacitor c e v (cap_flows b)
  end.

(** A link on its two nodes. *)
Record wired := mkwired { w_link : blink; w_n0 : Z; w_n1 : Z }.
Definition wmap (f : blink -> blink) (w : wired) : wired := mkwired (f (w_link w)) (w_n0 w) (w_n1 w).
Definition wnode (w : wired) (port : Z) : Z := if Z.eqb port 0 then w_n0 w else w_n1 w.

(** What the solver sees: GunnsBasicLink.cpp:374-391 for the map; ground is
    node [n]. *)
Definition corner (n : Z) (x y : Z) : Z := if (Z.eqb x n || Z.eqb y n)%bool then (-1)%Z else (x * n + y)%Z.
Definition sel4 {A} (a b c d : A) (m : nat) : A :=
  match m with 0 => a | 1 => b | 2 => c | _ => d end%nat.
Definition shown (n : nat) (w : wired) : link T :=
  let b := bbase (w_link w) in
  let x := w_n0 w in let y := w_n1 w in let n := Z.of_nat n in
  mklink T 4 (sel4 (corner n x x) (corner n x y) (corner n y x) (corner n y y))
    (sel4 (b_a0 b) (b_a1 b) (b_a2 b) (b_a3 b))
    2 (fun p => if Nat.eqb p 0 then x else y) (fun p => if Nat.eqb p 0 then b_w0 b else b_w1 b).

(** Gunns.cpp:1647-1655: the solution goes to the links, zero for ground. *)
Definition port_pot (n : nat) (p : nat -> T) (node : Z) : T :=
  if (node <? Z.of_nat n)%Z then p (Z.to_nat node) else n0.
Definition load (n : nat) (p : nat -> T) (w : wired) : wired :=
  wmap (fun l => set_base l (with_pot (bbase l) (port_pot n p (w_n0 w)) (port_pot n p (w_n1 w)))) w.

(** GunnsBasicFlowOrchestrator.cpp:137-148: the links compute and transport in
    descending order, then the nodes integrate (GunnsBasicNode.cpp:136-146).
    The flows were cleared at Gunns.cpp:753-755. *)
Definition no_flows : fluxes := {| f_in := fun _ => n0; f_out := fun _ => n0 |}.
Definition flow_pass (ws : list wired) : list wired * option fluxes :=
  let ws' := map (wmap flows) ws in
  (ws', fold_left (fun os w => match os with
                               | Some s => transport_flux 2 (wnode w) (b_flux (bbase (w_link w))) 0 1 s
                               | None => None
                               end) (rev ws') (Some no_flows)).
Definition net_flux (s : fluxes) (node : Z) : T := f_in s node -~ f_out s node.
Definition flux_through (s : fluxes) (node : Z) : T :=
  if f_in s node <~ f_out s node then f_in s node else f_out s node.
End LINKS.
