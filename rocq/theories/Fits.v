(** Curve fits.
    Source: /repo/ms-utils/math/approximation/TsApproximation.{cpp,hh} and the
    ...Fit.{cpp,hh} beside it, /repo/ms-utils/properties/FluidTsatFit.{cpp,hh},
    FluidHvapFit.{cpp,hh}.

    One [fit] holds the fields of any of these classes and the [kind] says which one
    it is, so that a virtual call is a match on the kind.  Names are reduced to
    whether they are empty; messages are left out.  The library functions sqrt, exp,
    pow and log10 are parameters. *)
From Coq Require Import List Bool ZArith.
From Verif Require Import Num MathUtil Fluid.

Inductive kind :=
| Linear | Quadratic | Cubic | Quartic | Quintic | Product | QuadLin | Power | Hvap
| Quotient | Exponential | InvLinear | InvQuadratic | Showmate
| Rational | Sutherland | QuadLinInv | QuadraticRoot | Tsat.

Section FITS.
Context {T : Type} {N : Num T}.
Variables (sq ex lg : T -> T) (pw : T -> T -> T).

(** TsApproximation.hh:56-61; the coefficients mA, mB, ... of the derived class.
    FluidTsatFit.hh:69-73 has mA, mB, mB2, mC4, mC2 in [f_a] to [f_e];
    FluidHvapFit.hh:56-58 has mA, mAlpha, mBeta in [f_a] to [f_c]. *)
Record fit := mkfit {
  f_minx : T; f_maxx : T; f_miny : T; f_maxy : T; f_flag : bool;
  f_a : T; f_b : T; f_c : T; f_d : T; f_e : T; f_f : T
}.
(** The arguments of a constructor or of init; a class ignores those it does not
    have. *)
Record args := mkargs {
  g_named : bool; g_minx : T; g_maxx : T; g_miny : T; g_maxy : T;
  g_a : T; g_b : T; g_c : T; g_d : T; g_e : T; g_f : T
}.

Definition set_flag (o : fit) (v : bool) : fit :=
  mkfit (f_minx o) (f_maxx o) (f_miny o) (f_maxy o) v
        (f_a o) (f_b o) (f_c o) (f_d o) (f_e o) (f_f o).
Definition set_coefs (o : fit) (a b c d e f : T) : fit :=
  mkfit (f_minx o) (f_maxx o) (f_miny o) (f_maxy o) (f_flag o) a b c d e f.

(** TsApproximation.cpp:80-105.  The second component: it threw. *)
Definition base_init (o : fit) (named : bool) (minx maxx miny maxy : T) : fit * bool :=
  let o := set_flag o false in
  if negb named then (o, true)
  else if maxx <=~ minx then (o, true)
  else if maxy <=~ miny then (o, true)
  else (mkfit minx maxx miny maxy true (f_a o) (f_b o) (f_c o) (f_d o) (f_e o) (f_f o), false).

(** The evaluate of each class, LinearFit.hh:96-99, QuadraticFit.hh:76-79,
    CubicFit.hh:76-79, QuarticFit.hh:76-79, QuinticFit.hh:79-82, ProductFit.hh:76-79,
    QuadLinFit.hh:84-87, PowerFit.hh:75-78, FluidHvapFit.hh:78-81, QuotientFit.hh:74-77,
    ExponentialFit.hh:80-83, InvLinearFit.hh:78-81, InvQuadraticFit.hh:79-82,
    ShowmateFit.hh:80-83, RationalFit.hh:79-82, SutherlandFit.hh:78-81,
    QuadLinInvFit.hh:91-94, QuadraticRootFit.hh:94-97, FluidTsatFit.hh:94-97. *)
Definition evaluate (k : kind) (o : fit) (x y : T) : T :=
  let a := f_a o in let b := f_b o in let c := f_c o in
  let d := f_d o in let e := f_e o in let f := f_f o in
  match k with
  | Linear => a +~ b *~ x
  | Quadratic => a +~ (b +~ c *~ x) *~ x
  | Cubic => a +~ (b +~ (c +~ d *~ x) *~ x) *~ x
  | Quartic => a +~ (b +~ (c +~ (d +~ e *~ x) *~ x) *~ x) *~ x
  | Quintic => a +~ (b +~ (c +~ (d +~ (e +~ f *~ x) *~ x) *~ x) *~ x) *~ x
  | Product => a *~ x *~ y
  | QuadLin => (a +~ b *~ y) +~ ((c +~ d *~ y) +~ (e +~ f *~ y) *~ x) *~ x
  | Power => a *~ pw b x
  | Hvap => a *~ ex (nopp b *~ x) *~ pw (n1 -~ x) c
  | Quotient => a *~ y /~ x
  | Exponential => ex (a +~ (b +~ c /~ x) /~ x)
  | InvLinear => a *~ x +~ b +~ c /~ x
  | InvQuadratic => a +~ (b +~ c /~ x) /~ x
  | Showmate =>
      a +~ (b +~ (c +~ d *~ ndec 1 (-3) *~ x) *~ ndec 1 (-3) *~ x) *~ ndec 1 (-3) *~ x
        +~ ndec 1000000 0 *~ e /~ (x *~ x)
  | Rational => (a +~ b *~ x) /~ (n1 +~ (c +~ d *~ x) *~ x)
  | Sutherland => a *~ sq (x *~ x *~ x) /~ (b +~ x)
  | QuadLinInv => (y -~ a -~ (c +~ e *~ x) *~ x) /~ (b +~ (d +~ f *~ x) *~ x)
  | QuadraticRoot => (a +~ sq (b +~ c *~ x)) *~ d
  | Tsat => (b -~ sq (c -~ d *~ (a -~ lg x))) *~ e
  end.

(** The checks for a singularity.  QuotientFit.cpp:86 has FLT_EPSILON,
    ExponentialFit.cpp:84, InvLinearFit.cpp:84, InvQuadraticFit.cpp:86,
    ShowmateFit.cpp:97 have DBL_EPSILON. *)
Definition zero_check (eps lo hi : T) : bool := (lo <~ eps) && (nopp eps <~ hi).
(** RationalFit.cpp:88-100 and, with FLT_EPSILON, QuadLinInvFit.cpp:106-119. *)
Definition roots_check (eps c d lo hi : T) : bool :=
  let disc := c *~ c -~ ndec 4 0 *~ d in
  if eps <~ disc then
    let arg := ndec 5 (-1) *~ sq disc in
    ((lo <=~ nopp c +~ arg +~ eps) && (nopp c +~ arg -~ eps <=~ hi))
    || ((lo <=~ nopp c -~ arg +~ eps) && (nopp c -~ arg -~ eps <=~ hi))
  else if nopp eps <~ disc then
    (lo <=~ ndec (-5) (-1) *~ c +~ eps) && (ndec (-5) (-1) *~ c -~ eps <~ hi)
  else false.

(** The second range given to the base class: QuadraticRootFit.cpp:82 has
    FLT_EPSILON, the other fits of one variable DBL_EPSILON. *)
Definition yrange (k : kind) (g : args) : T * T :=
  match k with
  | Product | QuadLin | Quotient | QuadLinInv => (g_miny g, g_maxy g)
  | QuadraticRoot => (nopp flt_eps, flt_eps)
  | _ => (nopp neps, neps)
  end.

(** init: the base class first, then mInitFlag is false until the checks of the class
    have passed; LinearFit.cpp:61-71, QuadraticFit.cpp:66-77, CubicFit.cpp:68-79,
    QuarticFit.cpp:73-86, QuinticFit.cpp:77-91, ProductFit.cpp:62-72,
    QuadLinFit.cpp:84-100, PowerFit.cpp:59-69 have no check of their own. *)
Definition init (k : kind) (o : fit) (g : args) : fit * bool :=
  let '(miny, maxy) := yrange k g in
  let '(o, threw) := base_init o (g_named g) (g_minx g) (g_maxx g) miny maxy in
  if threw then (o, true) else
  let plain := set_coefs o (g_a g) (g_b g) (g_c g) (g_d g) (g_e g) (g_f g) in
  let checked (bad : bool) (o' : fit) :=
    if bad then (set_flag o false, true) else (set_flag o' true, false) in
  match k with
  | Linear | Quadratic | Cubic | Quartic | Quintic | Product | QuadLin | Power => (plain, false)
  | Quotient => checked (zero_check flt_eps (f_minx o) (f_maxx o)) plain
  | Exponential | InvLinear | InvQuadratic | Showmate =>
      checked (zero_check neps (f_minx o) (f_maxx o)) plain
  | Rational =>
      checked (roots_check neps (g_c g) (g_d g) (g_minx g) (g_maxx g)) plain
  | QuadLinInv =>
      checked (roots_check flt_eps (g_d g) (g_f g) (g_minx g) (g_maxx g)) plain
  | Sutherland =>                                          (* SutherlandFit.cpp:79-84 *)
      checked ((g_b g +~ f_minx o <~ neps) && (nopp neps <~ g_b g -~ f_maxx o)) plain
  | QuadraticRoot =>                                       (* QuadraticRootFit.cpp:85-100 *)
      (* the second check is made with the mB and mC the object had before *)
      let q := nopp (f_b o) /~ f_c o in
      checked ((nabs (g_b g) <~ neps)
               || ((g_minx g +~ flt_eps <~ q) && (q <~ g_maxx g -~ flt_eps)))
        (set_coefs o (nopp (g_a g)) (g_a g *~ g_a g) (ndec 4 0 *~ g_b g) (ndec 5 (-1) /~ g_b g)
                   (f_e o) (f_f o))
  | Tsat =>                                                (* FluidTsatFit.cpp:91-125 *)
      if nabs (g_c g) <~ neps then (set_flag o false, true) else
      let o' := set_coefs o (g_a g) (nopp (g_b g)) (g_b g *~ g_b g) (ndec 4 0 *~ g_c g)
                          (ndec 5 (-1) /~ g_c g) (f_f o) in
      let rad x := f_c o' -~ f_d o' *~ (f_a o' -~ lg x) in
      if (rad (g_minx g) <~ n0) || (rad (g_maxx g) <~ n0)
         || (evaluate Tsat o' (g_minx g) n0 <~ neps) || (evaluate Tsat o' (g_maxx g) n0 <~ neps)
      then (set_flag o' false, true) else (set_flag o' true, false)
  | Hvap =>                                                (* FluidHvapFit.cpp:83-99 *)
      if (ndec 50 0 <~ nabs (g_b g)) || (ndec 50 0 <~ nabs (g_c g))
      then (set_flag plain false, true) else (plain, false)
  end.

(** The default constructors: TsApproximation.cpp:24-34 and, e.g.,
    QuadraticRootFit.cpp:20-29. *)
Definition fresh : fit := mkfit n0 n0 n0 n0 false n0 n0 n0 n0 n0 n0.
(** The other constructors, e.g. QuadraticRootFit.cpp:45-56, set the coefficients and
    call init; the base class's constructor, where it is given the ranges, only makes
    checks that init makes again.  [None]: it threw. *)
Definition ctor (k : kind) (g : args) : option fit :=
  let z := fresh in
  let o := match k with
           | QuadraticRoot => set_coefs z (nopp (g_a g)) (g_a g *~ g_a g) (ndec 4 0 *~ g_b g) n0 n0 n0
           | Tsat => z
           | _ => set_coefs z (g_a g) (g_b g) (g_c g) (g_d g) (g_e g) (g_f g)
           end in
  let '(o, threw) := init k o g in if threw then None else Some o.

(** TsApproximation.hh:97-101. *)
Definition get (k : kind) (o : fit) (x y : T) : T :=
  evaluate k o (limit_range (f_minx o) x (f_maxx o)) (limit_range (f_miny o) y (f_maxy o)).
(** TsApproximation.cpp:117-128; [None] is the exception. *)
Definition get_exceptional (k : kind) (o : fit) (x y : T) : option T :=
  if (x <~ f_minx o) || (f_maxx o <~ x) then None
  else if (y <~ f_miny o) || (f_maxy o <~ y) then None
  else Some (evaluate k o x y).
(** TsApproximation.cpp:135-138. *)
Definition is_initialized (o : fit) : bool := f_flag o.
End FITS.
Arguments fit : clear implicits.
Arguments args : clear implicits.
