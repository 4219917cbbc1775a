(** What the curve fits are meant to compute, over the reals. *)
From Coq Require Import Reals Bool.
From Verif Require Import Num Fits.
Open Scope R_scope.

(** The value nearest to [x] in [lo, hi]. *)
Definition into (lo x hi : R) : R := Rmax lo (Rmin x hi).

Definition log10 (x : R) : R := ln x / ln 10.

(** The curve of each class, from its header's documentation; [pow] is any power
    function. *)
Definition formula (pow : R -> R -> R) (k : kind) (g : args R) (x y : R) : R :=
  let a := g_a g in let b := g_b g in let c := g_c g in
  let d := g_d g in let e := g_e g in let f := g_f g in
  match k with
  | Linear => a + b * x
  | Quadratic => a + b * x + c * x ^ 2
  | Cubic => a + b * x + c * x ^ 2 + d * x ^ 3
  | Quartic => a + b * x + c * x ^ 2 + d * x ^ 3 + e * x ^ 4
  | Quintic => a + b * x + c * x ^ 2 + d * x ^ 3 + e * x ^ 4 + f * x ^ 5
  | Product => a * x * y
  | QuadLin => (a + c * x + e * x ^ 2) + (b + d * x + f * x ^ 2) * y
  | Power => a * pow b x
  | Hvap => a * exp (- (b * x)) * pow (1 - x) c
  | Quotient => a * y / x
  | Exponential => exp (a + b / x + c / x ^ 2)
  | InvLinear => a * x + b + c / x
  | InvQuadratic => a + b / x + c / x ^ 2
  | Showmate =>
      let t := x / 1000 in a + b * t + c * t ^ 2 + d * t ^ 3 + e / t ^ 2
  | Rational => (a + b * x) / (1 + c * x + d * x ^ 2)
  | Sutherland => a * sqrt (x ^ 3) / (b + x)
  | QuadLinInv => (y - (a + c * x + e * x ^ 2)) / (b + d * x + f * x ^ 2)
  | QuadraticRoot => (- a + sqrt (a ^ 2 + 4 * b * x)) / (2 * b)
  | Tsat => (- b - sqrt (b ^ 2 - 4 * c * (a - log10 x))) / (2 * c)
  end.

(** What the formula divides by. *)
Definition divisor (k : kind) (g : args R) (x : R) : R :=
  match k with
  | Quotient | Exponential | InvLinear | InvQuadratic | Showmate => x
  | Rational => 1 + g_c g * x + g_d g * x ^ 2
  | Sutherland => g_b g + x
  | QuadLinInv => g_b g + g_d g * x + g_f g * x ^ 2
  | QuadraticRoot => 2 * g_b g
  | Tsat => 2 * g_c g
  | _ => 1
  end.

(** Whether the fit has a second variable. *)
Definition two_vars (k : kind) : bool :=
  match k with Product | QuadLin | Quotient | QuadLinInv => true | _ => false end.
(** Whether the only singularity the fit can have is at 0, and how near it may come. *)
Definition zero_only (k : kind) : option R :=
  match k with
  | Quotient => Some (/ IZR (2 ^ 23))
  | Exponential | InvLinear | InvQuadratic | Showmate => Some Reps
  | _ => None
  end.
(** Whether the fit cannot have one. *)
Definition smooth (k : kind) : bool :=
  match k with
  | Linear | Quadratic | Cubic | Quartic | Quintic | Product | QuadLin | Power | Hvap => true
  | _ => false
  end.
(** The arguments name the fit and give proper ranges. *)
Definition proper (k : kind) (g : args R) : Prop :=
  g_named g = true /\ g_minx g < g_maxx g /\ (two_vars k = true -> g_miny g < g_maxy g).

(** The arguments give the same formula: two fits of fluids are made for each other. *)
Definition inside (lo x hi : R) : Prop := lo <= x <= hi.
