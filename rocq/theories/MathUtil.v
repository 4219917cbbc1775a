(** MsMath.
    Source: /repo/ms-utils/math/MsMath.hh, /repo/ms-utils/math/UnitConversion.cpp. *)
From Coq Require Import Floats Reals Lra Lia List Arith Bool ZArith.
From Verif Require Import Num.
Import ListNotations.

Section MSMATH.
Context {T : Type} {N : Num T}.

(** MsMath.hh:143-154.  [pi] is UnitConversion::PI_UTIL = acos(-1.0). *)
Definition angle_pi (pi : T) (angle : T) : T :=
  let two_pi := ndec 2 0 *~ pi in
  if angle <~ nopp pi then angle +~ two_pi
  else if pi <=~ angle then angle -~ two_pi else angle.
(** MsMath.hh:166-181. *)
Definition angle_2pi (pi : T) (angle : T) : T :=
  let two_pi := ndec 2 0 *~ pi in
  let r := if angle <~ n0 then angle +~ two_pi else angle in
  let r := if r <~ n0 then r +~ two_pi else r in
  if two_pi <=~ r then r -~ two_pi else r.
(** MsMath.hh:193-204. *)
Definition angle_180 (angle : T) : T :=
  if angle <~ nopp (ndec 180 0) then angle +~ ndec 360 0
  else if ndec 180 0 <=~ angle then angle -~ ndec 360 0 else angle.
(** MsMath.hh:216-231. *)
Definition angle_360 (angle : T) : T :=
  let r := if angle <~ n0 then angle +~ ndec 360 0 else angle in
  let r := if r <~ n0 then r +~ ndec 360 0 else r in
  if ndec 360 0 <=~ r then r -~ ndec 360 0 else r.

(** MsMath.hh:246-259, 274-287; the library functions std::asin, std::acos,
    std::sqrt, std::log10, std::log are parameters. *)
Definition protected_asin (asin : T -> T) (pi_over_2 : T) (x : T) : T :=
  if n1 -~ neps <~ x then pi_over_2
  else if x <~ nopp n1 +~ neps then nopp pi_over_2 else asin x.
Definition protected_acos (acos : T -> T) (pi : T) (x : T) : T :=
  if n1 -~ neps <~ x then n0
  else if x <~ nopp n1 +~ neps then pi else acos x.
(** MsMath.hh:301-312, 326-337, 351-362: one shape. *)
Definition protected_fun (f : T -> T) (x : T) : T := if x <~ neps then n0 else f x.

(** MsMath.hh:477-480. *)
Definition is_in_range (lower x upper : T) : bool := (lower <=~ x) && (x <=~ upper).
(** MsMath.hh:383-392. *)
Definition protected_div (num den threshold retval : T) : T :=
  if negb (is_in_range (nopp threshold) den threshold) then num /~ den else retval.
(** MsMath.hh:411-414 (and the float overload 433-436). *)
Definition limit_range (lower x upper : T) : T := nmax (nmin x upper) lower.
(** MsMath.hh:545-557. *)
Definition inner_limit (lower x upper : T) : T :=
  if (lower <~ x) && (x <~ upper) then
    if x <~ ndec 5 (-1) *~ (upper +~ lower) then lower else upper
  else x.
End MSMATH.

(** The int overloads, MsMath.hh:455-458, 578-590.  The second adds two ints
    before converting: [None] is signed overflow, undefined behaviour. *)
Definition int_ok (z : Z) : bool := ((- 2 ^ 31 <=? z) && (z <=? 2 ^ 31 - 1))%Z.
Definition limit_range_int (lower x upper : Z) : Z :=
  let m := if (upper <? x)%Z then upper else x in if (m <? lower)%Z then lower else m.
Definition inner_limit_int (lower x upper : Z) : option Z :=
  if ((lower <? x) && (x <? upper))%Z then
    if int_ok (upper + lower) then
      (* x < 0.5 * (upper + lower), exact in double for 32-bit ints *)
      Some (if (2 * x <? upper + lower)%Z then lower else upper)
    else None
  else Some x.

(** ** The functions below are over exact reals *)
Open Scope R_scope.

(** std::floor. *)
Definition floorR (x : R) : Z := (up x - 1)%Z.
(** MsMath.hh:605-609; [None]: the conversion to int is out of range, undefined
    behaviour. *)
Definition ms_round (x : R) : option Z :=
  let z := floorR (x + 5 / 10) in if int_ok z then Some z else None.
(** MsMath.hh:630-638. *)
Definition quantize (input resolution : R) : option R :=
  if Rltb Reps resolution then
    match ms_round (input / resolution) with Some z => Some (resolution * IZR z) | None => None end
  else Some input.
(** MsMath.hh:654-657. *)
Definition ms_asinh (value : R) : R :=
  protected_fun (T := R) ln (value + sqrt (value * value + 1)).

(** MsMath.hh:699-708, innermost factor first; a literal [k] with [false] is a
    division by [k]. *)
Definition series_factors : list (bool * (Z * Z)) :=
  [(false, (29, 0)); (false, (28, 0)); (false, (27, 0)); (false, (26, 0));
   (true, (4, -2)); (true, (4166666666666667, -17)); (false, (23, 0)); (false, (22, 0));
   (false, (21, 0)); (true, (5, -2)); (false, (19, 0)); (true, (5555555555555556, -17));
   (false, (17, 0)); (true, (625, -4)); (true, (6666666666666667, -17)); (false, (14, 0));
   (false, (13, 0)); (true, (8333333333333333, -17)); (true, (9090909090909091, -17));
   (true, (1, -1)); (true, (11111111111111111, -17)); (true, (125, -3)); (false, (7, 0));
   (true, (1666666666666667, -16)); (true, (2, -1)); (true, (25, -2));
   (true, (3333333333333333, -16)); (true, (5, -1)); (true, (1, 0))]%Z.
Definition series_step (b acc : R) (f : bool * (Z * Z)) : R :=
  let c := Rdec (fst (snd f)) (snd (snd f)) in
  1 + (if fst f then b * acc * c else b * acc / c).
Definition series (b : R) : R :=
  fold_left (series_step b) series_factors (1 + b * Rdec 3333333333333333 (-17)).

(** for (k = 1; k < num + 1; k++) pwr = pwr * fabs(base). *)
Fixpoint mul_n (n : nat) (x acc : R) : R :=
  match n with O => acc | S n => mul_n n x (acc * x) end.

(** MsMath.hh:676-731; [None]: a conversion to int out of range, or a value that is
    not finite (log(0), 1/0). *)
Definition fast_pow (base exp : R) : option R :=
  let num := floorR (Rabs exp) in     (* int(): truncation of a non-negative number *)
  if int_ok num then
    let b := Rabs exp - IZR num in
    if Reqb base 0 && (Rltb (Rdec 1 (-9)) b || Rltb exp 0) then None else
    let pwr :=
      if Rltb (Rdec 1 (-9)) b then
        let a := ln (Rabs base) in
        let p := series (Rabs (b * a)) in
        if Rltb a 0 then 1 / p else p
      else 1 in
    let pwr := mul_n (Z.to_nat num) (Rabs base) pwr in
    let pwr := if Rltb exp 0 then 1 / pwr else pwr in
    if Rltb base 0 then
      match ms_round exp with
      | None => None
      | Some r => Some (if (Z.abs (Z.rem r 2) =? 1)%Z then - pwr else pwr)
      end
    else Some pwr
  else None.
