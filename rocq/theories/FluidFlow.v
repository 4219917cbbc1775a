(** Fluid conductors and the flow, temperature, heat and diffusion formulas they share.
    Source: /repo/core/GunnsFluidUtils.cpp and /repo/core/GunnsFluidConductor.cpp.

    A [PolyFluid] argument is the record of the values its getters return; [std::sqrt], [std::pow]
    and [std::exp] are the arguments [sq], [pw] and [ex]; the fluid's enthalpy as a function of
    temperature is an argument of the heat flux.  Names, messages and the node's collect calls
    are left out: what a call reports to its nodes is its result. *)
From Coq Require Import List Bool ZArith.
From Verif Require Import Num MathUtil.
Import ListNotations.

Section FLOW.
Context {T : Type} {N : Num T}.
Variables (sq : T -> T) (pw : T -> T -> T) (ex : T -> T).

(** The getters of PolyFluid that the formulas read. *)
Record fl := mkfl {
  d_p : T; d_t : T; d_rho : T; d_mw : T;                (* pressure, temperature, density, MW *)
  d_gas : bool; d_gamma : T;                            (* GAS == phase, adiabatic index *)
  d_k : T; d_cp : T                                     (* thermal conductivity, specific heat *)
}.
Definition pa_per_kpa : T := ndec 1 3.                  (* UnitConversion.cpp:623 *)
Definition half : T := ndec 5 (-1).
Definition feps : T := ndec 11920928955078125 (-23).    (* FLT_EPSILON *)

(** ** Admittance and conductivity *)
Definition mean_density (a b : fl) : T := half *~ (d_rho a +~ d_rho b).
(** GunnsFluidUtils.cpp:120-129. *)
Definition use_mw (a b : fl) : T :=
  if d_mw a <~ neps then d_mw b else if d_mw b <~ neps then d_mw a
  else half *~ (d_mw a +~ d_mw b).
Definition limit_exp (e : T) : T := limit_range half e n1.
(** GunnsFluidUtils.cpp:76-151. *)
Definition admittance (cond minp : T) (a b : fl) (e : T) : T :=
  let dp := nmax minp (nabs (d_p a -~ d_p b)) in
  if (neps <~ dp) && (neps <~ use_mw a b) then
    let x := mean_density a b *~ (pa_per_kpa *~ dp) in
    let mdot := if half ==~ limit_exp e then cond *~ sq x
                else if n1 ==~ limit_exp e then cond *~ x
                else cond *~ pw x (limit_exp e) in
    mdot /~ dp /~ use_mw a b
  else n0.
(** GunnsFluidUtils.cpp:266-298. *)
Definition predict_cond (mdot minp : T) (a b : fl) (e : T) : T :=
  let d := nabs (d_p a -~ d_p b) in
  if (neps <~ d) && (neps <~ mean_density a b) then
    let dp := if d <~ minp then minp else d in
    let x := pa_per_kpa *~ dp *~ mean_density a b in
    if half ==~ limit_exp e then nabs mdot /~ sq x
    else if n1 ==~ limit_exp e then nabs mdot /~ x
    else nabs mdot /~ pw x (limit_exp e)
  else n0.

(** GunnsFluidUtils.cpp:161-198; [rho p] is the fluid's density at its temperature and [p]. *)
Definition capacitance (f : fl) (rho : T -> T) (volume : T) : T :=
  let p := if d_p f <~ feps then feps else d_p f in
  let p1 := p *~ ndec 999 (-3) in
  let p2 := p *~ ndec 1001 (-3) in
  nmax n0 ((rho p2 -~ rho p1) *~ volume /~ (d_mw f *~ (p2 -~ p1))).

(** ** Expansion *)
(** GunnsFluidUtils.cpp:213-244. *)
Definition iso_temp (scale p1 p2 : T) (f : fl) : T :=
  if d_gas f && (n0 <~ p1) then
    let r := p2 /~ p1 in
    if (neps <~ r) && (neps <~ d_gamma f) then
      d_t f +~ scale *~ (d_t f *~ pw r ((d_gamma f -~ n1) /~ d_gamma f) -~ d_t f)
    else d_t f
  else d_t f.
(** GunnsFluidUtils.cpp:318-345. *)
Definition predict_scale (dt : T) (a b : fl) : T :=
  let p0 := nmax neps (d_p a) in
  let p1 := nmax neps (d_p b) in
  let tuned (f : fl) (r : T) :=
    nopp (nabs dt) /~ (d_t f *~ (pw r ((d_gamma f -~ n1) /~ d_gamma f) -~ n1)) in
  let v := if (p1 <=~ p0) && d_gas a then tuned a (p1 /~ p0)
           else if (p0 <=~ p1) && d_gas b then tuned b (p0 /~ p1)
           else n0 in
  limit_range n0 v n1.

(** ** Heat *)
(** GunnsFluidUtils.cpp:693-727: the fluid's new temperature and the heat it lost;
    [h t] is its specific enthalpy at [t]. *)
Definition conv_flux (f : fl) (h : T -> T) (flow ua wall : T) : T * T :=
  let m := nabs flow in
  if (neps <~ m) && (neps <~ ua) then
    let lim := nmin ua (ndec 100 0 *~ m *~ d_cp f) in
    let out := wall +~ ex (nopp (lim /~ m /~ d_cp f)) *~ (d_t f -~ wall) in
    (out, m *~ (h (d_t f) -~ h out))
  else (d_t f, n0).
(** GunnsFluidUtils.cpp:775-796; [None]: it threw. *)
Definition cond_flux (area : T) (a b : fl) (l0 l1 : T) : option T :=
  let l := l0 +~ l1 in
  if l <=~ neps then None
  else
    let inv := n1 /~ l in
    Some (area *~ ((d_k a *~ l0 +~ d_k b *~ l1) *~ inv) *~ (d_t a -~ d_t b) *~ inv).

(** ** Diffusion *)
(** GunnsFluidUtils.cpp:41-45, UnitConversion.cpp:1185, 1225. *)
Definition lambda_base : T := ndec 13806504 (-30) /~ (pa_per_kpa *~ ndec 3 (-19)).
Definition gas_const : T := ndec 8314472 (-6).
(** A constituent: its mole fractions in the two fluids and its molecular weight. *)
Record sp := mksp { s_x0 : T; s_x1 : T; s_mw : T }.
(** GunnsFluidUtils.cpp:885-914. *)
Definition diffusivity (a b : fl) (l0 l1 inv : T) : T :=
  let lam0 := d_t a /~ nmax (d_p a) feps in
  let lam1 := d_t b /~ nmax (d_p b) feps in
  let lam := lambda_base *~ (lam0 *~ l0 +~ lam1 *~ l1) *~ inv in
  let t := nmax neps ((d_t a *~ l0 +~ d_t b *~ l1) *~ inv) in
  let w := nmax neps ((d_mw a *~ l0 +~ d_mw b *~ l1) *~ inv) in
  lam *~ sq (ndec 3000 0 *~ gas_const *~ t /~ w) /~ ndec 3 0.
(** GunnsFluidUtils.cpp:918-920. *)
Definition molar_density (a b : fl) (l0 l1 inv : T) : T :=
  nmax neps ((d_rho a /~ nmax neps (d_mw a) *~ l0 +~ d_rho b /~ nmax neps (d_mw b) *~ l1) *~ inv).
(** GunnsFluidUtils.cpp:928-932. *)
Definition diff_flux (d m inv : T) (c : sp) : T :=
  d *~ (s_x0 c *~ m -~ s_x1 c *~ m) *~ inv.
(** GunnsFluidUtils.cpp:916-940: the sums of the fluxes forward and backward. *)
Definition flux_sums (fs : list T) : T * T :=
  fold_left (fun s f => if n0 <=~ f then (fst s +~ f, snd s) else (fst s, snd s +~ f)) fs (n0, n0).
(** GunnsFluidUtils.cpp:950-964. *)
Definition flux_ratio (area bulk pos neg mw0 mw1 : T) : T :=
  if n0 <~ area then
    if (n0 <~ bulk) && (neg <~ n0) && negb (mw0 ==~ n0) then
      limit_range n0 (nmin n0 (neg +~ bulk /~ mw0 /~ area) /~ neg) n1
    else if (bulk <~ n0) && (n0 <~ pos) && negb (mw1 ==~ n0) then
      limit_range n0 (nmax n0 (pos +~ bulk /~ mw1 /~ area) /~ pos) n1
    else n1
  else n1.
(** GunnsFluidUtils.cpp:829-993: the constituents' masses in the diffusive fluid (its mixture,
    which updateMass makes of them), the net mass flow from the first fluid to the second and the
    temperature it is given; [None]: it threw. *)
Definition diffusion (area : T) (a b : fl) (cs : list sp) (bulk l0 l1 : T)
  : option (list T * T * T) :=
  let l := l0 +~ l1 in
  if l <=~ neps then None
  else
    let inv := n1 /~ l in
    let d := diffusivity a b l0 l1 inv in
    let m := molar_density a b l0 l1 inv in
    let fs := map (diff_flux d m inv) cs in
    let (pos, neg) := flux_sums fs in
    let r := flux_ratio area bulk pos neg (d_mw a) (d_mw b) in
    let ms := map (fun c => diff_flux d m inv c *~ s_mw c *~ r) cs in
    let net := fold_left nadd ms n0 *~ area in
    Some (ms, net, if n0 <~ net then d_t b else d_t a).
(** PolyFluid.cpp:828-861: the mass fractions updateMass makes of the masses. *)
Definition fractions (ms : list T) : list T :=
  let m := inner_limit (nopp neps) (fold_left nadd ms n0) neps in
  map (fun x => x /~ m) ms.
(** What a forced transport of a mixture at a rate brings to the second node of a constituent,
    and takes from the first: GunnsFluidLink.cpp:202-256 (m100EpsilonLimit is 100 DBL_EPSILON). *)
Definition carried (rate : T) (xs : list T) : list T :=
  if (ndec 100 0 *~ neps <~ rate) || (rate <~ nopp (ndec 100 0 *~ neps))
  then map (fun x => rate *~ x) xs else map (fun _ => n0) xs.

(** ** Mixtures *)
(** GunnsFluidUtils.cpp:1028-1050; [ws] are the molecular weights, [out] the array written. *)
Definition scaled (s : T) (ys out : list T) : list T :=
  if neps <=~ s then map (fun y => y /~ s) ys else out.
Definition mole_to_mass (out xs ws : list T) : list T :=
  let ys := map (fun p => fst p *~ snd p) (combine xs ws) in
  scaled (fold_left nadd ys n0) ys out.
(** GunnsFluidUtils.cpp:1061-1083. *)
Definition mass_to_mole (out xs ws : list T) : list T :=
  let ys := map (fun p => fst p /~ snd p) (combine xs ws) in
  scaled (fold_left nadd ys n0) ys out.
(** GunnsFluidUtils.cpp:1094-1108. *)
Definition press_to_mole (out ps : list T) : list T :=
  scaled (fold_left nadd ps n0) ps out.
(** GunnsFluidUtils.cpp:1119-1127. *)
Definition mole_to_press (xs : list T) (p : T) : list T := map (fun x => x *~ p) xs.

(** buildTransformMap, GunnsFluidUtils.cpp:390-453; types are numbers, [None] for the conversion
    type is NO_FLUID; an entry is [None] for -1; result [None]: it threw. *)
Fixpoint find_type (t : nat) (ts : list nat) (i : nat) : option nat :=
  match ts with
  | [] => None
  | u :: r => if Nat.eqb t u then Some i else find_type t r (S i)
  end.
Definition map_to (ins outs : list nat) (c : option nat) : option (list (option nat)) :=
  let m := map (fun t => match find_type t outs 0 with Some j => Some j | None => c end) ins in
  if existsb (fun e => match e with Some _ => true | None => false end) m then Some m else None.
Definition transform_map (ins outs : list nat) (conv : option nat) : option (list (option nat)) :=
  match conv with
  | None => map_to ins outs None
  | Some t => match find_type t outs 0 with Some j => map_to ins outs (Some j) | None => None end
  end.
(** transformState, GunnsFluidUtils.cpp:487-511: the mass fractions given to the [n] constituents
    of the receiving fluid, whose own are [old]. *)
Definition add_at (l : list T) (j : nat) (x : T) : list T :=
  map (fun p => if Nat.eqb (fst p) j then snd p +~ x else snd p) (combine (seq 0 (length l)) l).
Definition transform_fracs (old : list T) (m : list (option nat)) (xs : list T) : list T :=
  let acc := fold_left (fun s p =>
               match fst p with
               | Some j => (add_at (fst s) j (snd p), snd s +~ snd p)
               | None => s
               end) (combine m xs) (map (fun _ => n0) old, n0) in
  if n0 <~ snd acc then map (fun y => y /~ snd acc) (fst acc) else old.

(** ** The conductor *)
Inductive tune := T_OFF | T_MASS | T_TRUE_VOL | T_STD_VOL | T_DELTA_T.
(** GunnsFluidConductor.hh and the members of its bases that it uses; the admittance matrix is
    its first entry. *)
Record conductor := mkcond {
  q_max : T; q_scale : T; q_exp : T; q_eff : T; q_sys : T;
  q_tune : tune; q_tmass : T; q_tvol : T; q_tdt : T;
  q_block : bool; q_blockv : T; q_minp : T; q_lim : T;
  q_a : T; q_upd : bool
}.
Definition std_density_air : T := ndec 12041 (-4).      (* UnitConversion.cpp:1153 *)
(** tuneFlow, GunnsFluidConductor.cpp:426-435. *)
Definition tune_flow (q : conductor) (a b : fl) (flow : T) : conductor :=
  let k := predict_cond flow (q_minp q) a b (q_exp q) in
  mkcond k (q_scale q) (q_exp q) k (q_sys q) T_OFF (q_tmass q) (q_tvol q) (q_tdt q)
         false (q_blockv q) (q_minp q) (q_lim q) (q_a q) (q_upd q).
Definition with_scale (q : conductor) (s : T) : conductor :=
  mkcond (q_max q) s (q_exp q) (q_eff q) (q_sys q) T_OFF (q_tmass q) (q_tvol q) (q_tdt q)
         (q_block q) (q_blockv q) (q_minp q) (q_lim q) (q_a q) (q_upd q).
Definition with_eff (q : conductor) (k : T) : conductor :=
  mkcond (q_max q) (q_scale q) (q_exp q) k (q_sys q) (q_tune q) (q_tmass q) (q_tvol q) (q_tdt q)
         (q_block q) (q_blockv q) (q_minp q) (q_lim q) (q_a q) (q_upd q).
(** GunnsFluidConductor.cpp:241-268. *)
Definition do_tune (q : conductor) (a b : fl) : conductor :=
  match q_tune q with
  | T_MASS => tune_flow q a b (q_tmass q)
  | T_TRUE_VOL => tune_flow q a b (q_tvol q *~ (if n0 <=~ q_tvol q then d_rho a else d_rho b))
  | T_STD_VOL => tune_flow q a b (q_tvol q *~ std_density_air)
  | T_DELTA_T => with_scale q (predict_scale (q_tdt q) a b)
  | T_OFF => q
  end.
(** GunnsFluidConductor.cpp:272-310; [q_eff] is what updateState left. *)
Definition cond_build (q : conductor) (a b : fl) : conductor :=
  let eff := if q_block q then q_eff q *~ (n1 -~ q_blockv q) else q_eff q in
  let sys := limit_range n0 (admittance eff (q_minp q) a b (q_exp q)) (q_lim q) in
  let changed := n0 <~ nabs (q_a q -~ sys) in
  mkcond (q_max q) (q_scale q) (q_exp q) eff sys (q_tune q) (q_tmass q) (q_tvol q) (q_tdt q)
         (q_block q) (q_blockv q) (q_minp q) (q_lim q)
         (if changed then sys else q_a q) (if changed then true else q_upd q).
(** GunnsFluidConductor.cpp:230-278; [state k] is the effective conductivity that updateState
    makes of the maximum one. *)
Definition cond_step (state : T -> T) (q : conductor) (a b : fl) : conductor :=
  cond_build (do_tune (with_eff q (state (q_max q))) a b) a b.
(** computeFlux, GunnsFluidConductor.cpp:407-417. *)
Definition cond_flow (q : conductor) (p0 p1 : T) : T :=
  if nabs (p0 -~ p1) <~ nmax p0 p1 *~ (ndec 100 0 *~ neps) then n0 else (p0 -~ p1) *~ q_a q.
(** The mass flow rate of transportFlows, GunnsFluidConductor.cpp:344-349, with its source port:
    a positive flux leaves the first node.  Neither node is the network's Ground, whose fluid
    is never the source (GunnsFluidLink.cpp:370-382). *)
Definition mass_flow (flux : T) (a b : fl) : T :=
  flux *~ (if flux <~ n0 then d_mw b else d_mw a).
End FLOW.
