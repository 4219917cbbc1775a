(** Fluid mixtures.
    Source: /repo/aspects/fluid/fluid/PolyFluid.{cpp,hh}, MonoFluid.{cpp,hh},
    /repo/ms-utils/properties/FluidProperties.hh, LinearFit.hh, TsApproximation.hh,
    /repo/core/GunnsFluidUtils.cpp.

    Simplifications: the curve fits other than the specific heat are arbitrary
    functions of temperature and pressure; trace compounds, names, messages and
    allocation are left out.  A loop over the constituents that only writes to the
    constituent it visits is a [map]; a running total is a left fold from 0, in the
    order of the code.  A pointer to an array of doubles is a list; [Ub] is a read
    past its end. *)
From Coq Require Import List Arith Bool ZArith.
From Verif Require Import Num MathUtil.
Import ListNotations.

Inductive outcome (A : Type) := Ok (a : A) | Throws | Ub.
Arguments Ok {A} _. Arguments Throws {A}. Arguments Ub {A}.

Section FLUID.
Context {T : Type} {N : Num T}.

(** FLT_EPSILON = 2^-23 and the two constants of PolyFluid.cpp:149, 154;
    MonoFluid.cpp:39 has the value of the second. *)
Definition flt_eps : T := neps *~ ndec 536870912 0.
Definition frac_tol : T := ndec 1 (-4).
Definition eps2 : T := neps *~ neps.

(** FluidProperties: what a mixture uses of a fluid type.  The specific heat is a
    LinearFit [A + B x] with the range of validity of TsApproximation. *)
Record props := mkprops {
  p_mw : T;                                (* mMWeight *)
  p_phase : nat;                           (* mPhase *)
  p_cpA : T; p_cpB : T;                    (* getA, getB of mSpecificHeat *)
  p_cpmin : T; p_cpmax : T;                (* mMinX, mMaxX of mSpecificHeat *)
  p_rho : T -> T -> T;                     (* getDensity *)
  p_visc : T -> T -> T;                    (* getViscosity *)
  p_k : T -> T -> T;                       (* getThermalConductivity *)
  p_pr : T -> T -> T;                      (* getPrandtlNumber *)
  p_gam : T -> T -> T;                     (* getAdiabaticIndex *)
  p_press : T -> T -> T                    (* mPressure->get *)
}.
(** TsApproximation.hh:97-101, LinearFit.hh:96-99, FluidProperties.hh:746-750. *)
Definition cp (p : props) (t : T) : T :=
  p_cpA p +~ p_cpB p *~ limit_range (p_cpmin p) t (p_cpmax p).
(** FluidProperties.hh:841-853. *)
Definition press (p : props) (t rho : T) : T :=
  let r := p_press p t rho in if r <~ neps then neps else r.

(** A Constituent with its MonoFluid. *)
Record const := mkconst {
  c_type : nat; c_pr : props;
  c_t : T; c_p : T; c_w : T; c_mass : T; c_mole : T;   (* mFluid *)
  c_x : T;                                             (* mMassFraction *)
  c_y : T                                              (* mMoleFraction *)
}.
Definition c_mw (c : const) : T := p_mw (c_pr c).
Definition cset_t (c : const) (t : T) : const :=
  mkconst (c_type c) (c_pr c) t (c_p c) (c_w c) (c_mass c) (c_mole c) (c_x c) (c_y c).
Definition cset_p (c : const) (p : T) : const :=
  mkconst (c_type c) (c_pr c) (c_t c) p (c_w c) (c_mass c) (c_mole c) (c_x c) (c_y c).
Definition cset_w (c : const) (w : T) : const :=
  mkconst (c_type c) (c_pr c) (c_t c) (c_p c) w (c_mass c) (c_mole c) (c_x c) (c_y c).
(** MonoFluid.hh:388-392. *)
Definition cset_mass (c : const) (m : T) : const :=
  mkconst (c_type c) (c_pr c) (c_t c) (c_p c) (c_w c) m (m /~ c_mw c) (c_x c) (c_y c).
(** MonoFluid.hh:401-405. *)
Definition cset_mole (c : const) (n : T) : const :=
  mkconst (c_type c) (c_pr c) (c_t c) (c_p c) (c_w c) (n *~ c_mw c) n (c_x c) (c_y c).
Definition cset_x (c : const) (x : T) : const :=
  mkconst (c_type c) (c_pr c) (c_t c) (c_p c) (c_w c) (c_mass c) (c_mole c) x (c_y c).
Definition cset_y (c : const) (y : T) : const :=
  mkconst (c_type c) (c_pr c) (c_t c) (c_p c) (c_w c) (c_mass c) (c_mole c) (c_x c) y.

(** PolyFluid. *)
Record fluid := mkfluid {
  f_t : T; f_p : T; f_w : T; f_mass : T; f_mole : T; f_phase : option nat;
  f_mw : T; f_rho : T; f_visc : T; f_cp : T; f_h : T; f_k : T; f_pr : T; f_gam : T;
  f_cs : list const
}.

Definition tsum (g : const -> T) (cs : list const) : T :=
  fold_left (fun acc c => acc +~ g c) cs n0.
(** The sum over the constituents with a mole fraction above DBL_EPSILON. *)
Definition ysum (g : const -> T) (cs : list const) : T :=
  fold_left (fun acc c => if neps <~ nabs (c_y c) then acc +~ g c else acc) cs n0.
Definition xsum (g : const -> T) (cs : list const) : T :=
  fold_left (fun acc c => if neps <~ nabs (c_x c) then acc +~ g c else acc) cs n0.
Definition dlim (v : T) : T := inner_limit (nopp neps) v neps.
Definition dlim2 (v : T) : T := inner_limit (nopp eps2) v eps2.

(** The property loops of PolyFluid.cpp:543-557, 623-639, 1047-1062. *)
Definition cs_rho (cs : list const) := ysum (fun c => p_rho (c_pr c) (c_t c) (c_p c)) cs.
Definition cs_visc (cs : list const) := ysum (fun c => p_visc (c_pr c) (c_t c) (c_p c) *~ c_y c) cs.
Definition cs_cp (cs : list const) := ysum (fun c => cp (c_pr c) (c_t c) *~ c_x c) cs.
Definition cs_k (cs : list const) := ysum (fun c => p_k (c_pr c) (c_t c) (c_p c) *~ c_x c) cs.
Definition cs_pr (cs : list const) := ysum (fun c => p_pr (c_pr c) (c_t c) (c_p c) *~ c_y c) cs.
Definition cs_gam (cs : list const) := ysum (fun c => p_gam (c_pr c) (c_t c) (c_p c) *~ c_y c) cs.

(** PolyFluid.cpp:612-641. *)
Definition set_temperature (f : fluid) (t : T) : fluid :=
  let cs := map (fun c => cset_p (cset_t c t) (f_p f *~ c_y c)) (f_cs f) in
  mkfluid t (f_p f) (f_w f) (f_mass f) (f_mole f) (f_phase f) (f_mw f)
          (cs_rho cs) (cs_visc cs) (cs_cp cs) (cs_cp cs *~ t) (cs_k cs) (cs_pr cs) (cs_gam cs) cs.
(** PolyFluid.cpp:653-666: the constituents' pressures are left alone. *)
Definition set_pressure (f : fluid) (p : T) : fluid :=
  mkfluid (f_t f) p (f_w f) (f_mass f) (f_mole f) (f_phase f) (f_mw f)
          (ysum (fun c => p_rho (c_pr c) (f_t f) (p *~ c_y c)) (f_cs f))
          (f_visc f) (f_cp f) (f_h f) (f_k f) (f_pr f) (f_gam f) (f_cs f).
(** PolyFluid.hh:580-589. *)
Definition set_flow (f : fluid) (w : T) : fluid :=
  mkfluid (f_t f) (f_p f) w (f_mass f) (f_mole f) (f_phase f) (f_mw f) (f_rho f)
          (f_visc f) (f_cp f) (f_h f) (f_k f) (f_pr f) (f_gam f)
          (map (fun c => cset_w c (c_x c *~ w)) (f_cs f)).
(** PolyFluid.hh:598-609. *)
Definition set_mole (f : fluid) (n : T) : fluid :=
  mkfluid (f_t f) (f_p f) (f_w f) (n *~ f_mw f) n (f_phase f) (f_mw f) (f_rho f)
          (f_visc f) (f_cp f) (f_h f) (f_k f) (f_pr f) (f_gam f)
          (map (fun c => cset_mole c (c_y c *~ n)) (f_cs f)).
(** PolyFluid.cpp:1333-1346. *)
Definition set_mass (f : fluid) (m : T) : fluid :=
  let mw := dlim (f_mw f) in
  mkfluid (f_t f) (f_p f) (f_w f) m (m /~ mw) (f_phase f) mw (f_rho f)
          (f_visc f) (f_cp f) (f_h f) (f_k f) (f_pr f) (f_gam f)
          (map (fun c => cset_mass c (c_x c *~ m)) (f_cs f)).

(** The checks of PolyFluid.cpp:475-490, 691-706, 755-770: [None] is the exception,
    otherwise the fractions, normalized if off by more than FLT_EPSILON. *)
Definition check_fractions (fr : list T) : option (list T) :=
  let one := fold_left nadd fr n0 in
  let error := nabs (n1 -~ one) in
  if frac_tol <~ error then None
  else if flt_eps <~ error then Some (map (fun x => x /~ one) fr) else Some fr.

Definition zip_with {A B C : Type} (g : A -> B -> C) (l : list A) (m : list B) : list C :=
  map (fun q => g (fst q) (snd q)) (combine l m).

(** PolyFluid.cpp:688-730. *)
Definition set_mass_fractions (f : fluid) (m : T) (fr : list T) : outcome fluid :=
  if (length fr <? length (f_cs f))%nat then Ub else
  match check_fractions (firstn (length (f_cs f)) fr) with
  | None => Throws
  | Some fr =>
      let cs := zip_with (fun c x => cset_y (cset_x c x) (x /~ c_mw c)) (f_cs f) fr in
      let mpm := dlim (tsum c_y cs) in
      let mw := n1 /~ mpm in
      let mole := m /~ mw in
      Ok (mkfluid (f_t f) (f_p f) (f_w f) m mole (f_phase f) mw (f_rho f)
                  (f_visc f) (f_cp f) (f_h f) (f_k f) (f_pr f) (f_gam f)
            (map (fun c => let c := cset_y c (c_y c /~ mpm) in
                           cset_w (cset_mole c (c_y c *~ mole)) (c_x c *~ f_w f)) cs))
  end.
(** PolyFluid.cpp:752-795. *)
Definition set_mole_fractions (f : fluid) (n : T) (fr : list T) : outcome fluid :=
  if (length fr <? length (f_cs f))%nat then Ub else
  match check_fractions (firstn (length (f_cs f)) fr) with
  | None => Throws
  | Some fr =>
      let cs := zip_with (fun c y => cset_x (cset_y c y) (y *~ c_mw c)) (f_cs f) fr in
      let mw := dlim (tsum c_x cs) in
      let m := n *~ mw in
      Ok (mkfluid (f_t f) (f_p f) (f_w f) m n (f_phase f) mw (f_rho f)
                  (f_visc f) (f_cp f) (f_h f) (f_k f) (f_pr f) (f_gam f)
            (map (fun c => let c := cset_x c (c_x c /~ mw) in
                           cset_w (cset_mass c (c_x c *~ m)) (c_x c *~ f_w f)) cs))
  end.

(** PolyFluid.cpp:809-818. *)
Fixpoint upd_nth (i : nat) (g : const -> const) (cs : list const) : list const :=
  match cs, i with
  | [], _ => []
  | c :: cs, O => g c :: cs
  | c :: cs, S i => c :: upd_nth i g cs
  end.
Definition with_cs (f : fluid) (cs : list const) : fluid :=
  mkfluid (f_t f) (f_p f) (f_w f) (f_mass f) (f_mole f) (f_phase f) (f_mw f) (f_rho f)
          (f_visc f) (f_cp f) (f_h f) (f_k f) (f_pr f) (f_gam f) cs.
Definition set_mass_i (f : fluid) (i : Z) (m : T) : outcome fluid :=
  if ((i <? 0) || (Z.of_nat (length (f_cs f)) <=? i))%Z then Throws
  else Ok (with_cs f (upd_nth (Z.to_nat i) (fun c => cset_mass c m) (f_cs f))).
(** PolyFluid.cpp:828-861. *)
Definition update_mass (f : fluid) : fluid :=
  let m := dlim (tsum c_mass (f_cs f)) in
  let cs := map (fun c => cset_x (cset_y c (c_mass c /~ c_mw c)) (c_mass c /~ m)) (f_cs f) in
  let moles := dlim (tsum c_y cs) in
  mkfluid (f_t f) (f_p f) (f_w f) m moles (f_phase f) (m /~ moles) (f_rho f)
          (f_visc f) (f_cp f) (f_h f) (f_k f) (f_pr f) (f_gam f)
          (map (fun c => cset_y c (c_y c /~ moles)) cs).

(** PolyFluid.cpp:870-901, MonoFluid.hh:412-419. *)
Definition reset_state (f : fluid) : fluid :=
  mkfluid n0 n0 n0 n0 n0 (f_phase f) n0 n0 n0 n0 n0 n0 n0 n0
          (map (fun c => mkconst (c_type c) (c_pr c) n0 n0 n0 n0 n0 n0 n0) (f_cs f)).

Definition same_types (f g : fluid) : bool :=
  if list_eq_dec Nat.eq_dec (map c_type (f_cs f)) (map c_type (f_cs g)) then true else false.
(** PolyFluid.cpp:913-954, MonoFluid.hh:429-435: the masses and moles stay. *)
Definition set_state (f src : fluid) : outcome fluid :=
  if same_types f src then
    Ok (mkfluid (f_t src) (f_p src) (f_w src) (f_mass f) (f_mole f) (f_phase f) (f_mw src)
                (f_rho src) (f_visc src) (f_cp src) (f_h src) (f_k src) (f_pr src) (f_gam src)
          (zip_with (fun c d => mkconst (c_type c) (c_pr c) (c_t d) (c_p d) (c_w d)
                                        (c_mass c) (c_mole c) (c_x d) (c_y d)) (f_cs f) (f_cs src)))
  else Throws.

(** MonoFluid.cpp:232-260. *)
Definition mono_add (c d : const) (flow : T) : const :=
  let w := if nabs flow <~ eps2 then c_w d else flow in
  let w' := c_w c +~ w in
  if eps2 <~ nabs w' then
    let a := c_w c /~ w' in
    let b := w /~ w' in
    mkconst (c_type c) (c_pr c) (nabs (c_t c *~ a +~ c_t d *~ b)) (nabs (c_p c *~ a +~ c_p d *~ b))
            w' (c_mass c) (c_mole c) (c_x c) (c_y c)
  else
    mkconst (c_type c) (c_pr c) (ndec 5 (-1) *~ (c_t c +~ c_t d)) (ndec 5 (-1) *~ (c_p c +~ c_p d))
            w' (c_mass c) (c_mole c) (c_x c) (c_y c).

(** PolyFluid.cpp:1159-1183; [sq] is std::sqrt.  The cast to LinearFit succeeds: the
    specific heats of FluidProperties.hh:230-523 all have that type. *)
Definition fitB (cs : list const) : T := xsum (fun c => c_x c *~ p_cpB (c_pr c)) cs.
Definition fitA (cs : list const) : T := xsum (fun c => c_x c *~ p_cpA (c_pr c)) cs.
Definition compute_temperature (sq : T -> T) (f : fluid) (h : T) : T :=
  let a := fitB (f_cs f) in
  let b := fitA (f_cs f) in
  let temp := nmax (b *~ b +~ ndec 4 0 *~ a *~ h) n0 in
  ndec 5 (-1) *~ (nopp b +~ sq temp) /~ a.
(** PolyFluid.cpp:1197-1212. *)
Definition compute_h (f : fluid) (t : T) : T :=
  xsum (fun c => cp (c_pr c) t *~ c_x c) (f_cs f) *~ t.
(** PolyFluid.cpp:1226-1239. *)
Definition compute_p (f : fluid) (t rho : T) : T :=
  xsum (fun c => press (c_pr c) t (rho *~ c_x c)) (f_cs f).
(** PolyFluid.cpp:1253-1266. *)
Definition compute_rho (f : fluid) (t p : T) : T :=
  ysum (fun c => p_rho (c_pr c) t (p *~ c_y c)) (f_cs f).

(** PolyFluid.cpp:969-1076.  The flag tells that an exception was thrown; the flow
    rate is already changed when the second one is. *)
Definition with_w (f : fluid) (w : T) : fluid :=
  mkfluid (f_t f) (f_p f) w (f_mass f) (f_mole f) (f_phase f) (f_mw f) (f_rho f)
          (f_visc f) (f_cp f) (f_h f) (f_k f) (f_pr f) (f_gam f) (f_cs f).
Definition add_state (sq : T -> T) (f src : fluid) (flow : T) : fluid * bool :=
  if negb (same_types f src) then (f, true) else
  let sw := if nabs flow <~ neps then f_w src else flow in
  let w := f_w f +~ sw in
  if nabs w <~ neps then (with_w f w, true) else
  let cs := zip_with (fun c d => mono_add c d (sw *~ c_x d)) (f_cs f) (f_cs src) in
  let molew := dlim2 (tsum (fun c => c_w c /~ c_mw c) cs) in
  let cs := map (fun c => let c := cset_x c (c_w c /~ w) in cset_y c (c_x c /~ c_mw c)) cs in
  let mpm := dlim2 (tsum c_y cs) in
  let cs := map (fun c => cset_y c (c_y c /~ mpm)) cs in
  let p := tsum (fun c => c_p c *~ c_y c) cs in
  let h := f_h src *~ sw /~ w +~ f_h f *~ f_w f /~ w in
  let t := compute_temperature sq (with_cs f cs) h in
  let cs := map (fun c => cset_t c t) cs in
  (mkfluid t p w (f_mass f) (f_mole f) (f_phase f) (w /~ molew) (cs_rho cs) (cs_visc cs)
           (cs_cp cs) h (cs_k cs) (cs_pr cs) (cs_gam cs) cs, false).

(** PolyFluid.cpp:345-436 with validate, 469-507, and derive, 514-559, and
    MonoFluid.cpp:160-203; the types, their properties and the fractions are given
    together.  Constituents are created with the mixture's pressure, flow rate and
    mass; the mole fractions start as the fractions given. *)
Record fluid_in := mkfluidin { i_t : T; i_p : T; i_w : T; i_mass : T }.
Definition one_phase (cs : list const) : option (option nat) :=
  fold_left (fun acc c =>
    match acc with
    | None => None
    | Some ph =>
        if neps <~ nabs (c_x c) then
          match ph with
          | None => Some (Some (p_phase (c_pr c)))
          | Some q => if Nat.eqb (p_phase (c_pr c)) q then Some ph else None
          end
        else Some ph
    end) cs (Some None).
Definition initialize (types : list (nat * props * T)) (i : fluid_in) : outcome fluid :=
  if (length types <? 1)%nat then Throws else
  if (i_t i <~ flt_eps) || (i_p i <~ flt_eps) then Throws else
  match check_fractions (map snd types) with
  | None => Throws
  | Some xs =>
      let cs := zip_with (fun (q : nat * props * T) x =>
                  mkconst (fst (fst q)) (snd (fst q)) (i_t i) (i_p i) (i_w i) (i_mass i)
                          (i_mass i /~ p_mw (snd (fst q))) x (snd q)) types xs in
      match one_phase cs with
      | None => Throws
      | Some ph =>
          let cs := map (fun c => cset_mass (cset_w (cset_t (cset_y c (c_y c /~ c_mw c)) (i_t i))
                                                    (c_x c *~ i_w i)) (c_x c *~ i_mass i)) cs in
          let mpm := dlim (tsum c_y cs) in
          let cs := map (fun c => let c := cset_y c (c_y c /~ mpm) in cset_p c (c_y c *~ i_p i)) cs in
          let mw := n1 /~ mpm in
          Ok (mkfluid (i_t i) (i_p i) (i_w i) (i_mass i) (i_mass i /~ mw) ph mw (cs_rho cs)
                      (cs_visc cs) (cs_cp cs) (cs_cp cs *~ i_t i) (cs_k cs) (cs_pr cs) (cs_gam cs) cs)
      end
  end.

(** PolyFluid.cpp:1088-1095. *)
Definition with_p (f : fluid) (p : T) : fluid :=
  mkfluid (f_t f) p (f_w f) (f_mass f) (f_mole f) (f_phase f) (f_mw f) (f_rho f)
          (f_visc f) (f_cp f) (f_h f) (f_k f) (f_pr f) (f_gam f) (f_cs f).
Definition edit (f : fluid) (t p : T) : fluid :=
  set_temperature (with_p f (nmax n0 p)) (nmax n0 t).
(** PolyFluid.cpp:1108-1145: an exception from setMoleAndMoleFractions is caught. *)
Definition edit_partial (f : fluid) (t : T) (pp : list T) : outcome fluid :=
  if (length pp <? length (f_cs f))%nat then Ub else
  let pp := firstn (length (f_cs f)) pp in
  let p := fold_left (fun acc q => acc +~ nmax n0 q) pp n0 in
  let f := set_temperature (with_p f p) (nmax n0 t) in
  if p <~ flt_eps then Ok f else
  match set_mole_fractions f (f_mole f) (map (fun q => nmax n0 q /~ p) pp) with
  | Ok f' => Ok (set_temperature f' (nmax n0 t))
  | Throws => Ok f
  | Ub => Ub
  end.

(** GunnsFluidUtils.cpp:1140-1163. *)
Definition normalize_array (fr : list T) : list T * bool :=
  let fr := map (fun x => if x <~ eps2 then n0 else x) fr in
  let s := fold_left nadd fr n0 in
  if flt_eps <~ nabs (s -~ n1)
  then (if n0 <~ s then map (fun x => x /~ s) fr else fr, true)
  else (fr, false).
(** GunnsFluidUtils.cpp:1182-1209; numFluidTypes is the number of constituents of
    both fluids. *)
Definition mix_masses (out : fluid) (outm : T) (inn : fluid) (inm : T) : outcome (fluid * bool) :=
  let m := inm +~ outm in
  if m <~ neps then Throws else
  let fr := zip_with (fun c d => (inm *~ c_x d +~ outm *~ c_x c) /~ m) (f_cs out) (f_cs inn) in
  let (fr, norm) := normalize_array fr in
  match set_mass_fractions out m fr with
  | Ok f => Ok (f, norm)
  | Throws => Throws
  | Ub => Ub
  end.
End FLUID.
Arguments props : clear implicits.
Arguments const : clear implicits.
Arguments fluid : clear implicits.
Arguments fluid_in : clear implicits.
