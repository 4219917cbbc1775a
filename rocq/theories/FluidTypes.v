(** Fluid types: the properties of a fluid and the fluids GUNNS defines.
    Source: /repo/ms-utils/properties/FluidProperties.{cpp,hh}; the functions that
    combine the curve fits are FluidProperties.hh:710-928, the numbers are
    FluidProperties.cpp:109-209, 379-897 and the combinations 898-1275.

    The constants are kept as they are written, decimal literals and products and
    quotients of them, and are evaluated over any numbers.  The density and pressure
    tables of the real gases and of water with compressibility (TsBilinearInterpolator,
    C73, C78) are left out: [None]. *)
From Coq Require Import List Bool ZArith QArith.
From Verif Require Import Num MathUtil Fluid Fits.
Import ListNotations.

Inductive lit := D (m e : Z) | LMul (a b : lit) | LDiv (a b : lit).

Record ftype (A : Type) := mkftype {
  y_gas : bool;                           (* mPhase is GAS *)
  y_mw : A; y_tc : A;                     (* mMWeight, mCriticalTemperature *)
  y_rho : option (kind * args A); y_press : option (kind * args A);
  y_visc : kind * args A; y_cp : kind * args A; y_k : kind * args A; y_pr : kind * args A;
  y_gam : kind * args A; y_temp : kind * args A; y_psat : kind * args A;
  y_tsat : kind * args A; y_hvap : kind * args A
}.
Arguments mkftype {A}. Arguments y_gas {A}. Arguments y_mw {A}. Arguments y_tc {A}.
Arguments y_rho {A}. Arguments y_press {A}. Arguments y_visc {A}. Arguments y_cp {A}.
Arguments y_k {A}. Arguments y_pr {A}. Arguments y_gam {A}. Arguments y_temp {A}.
Arguments y_psat {A}. Arguments y_tsat {A}. Arguments y_hvap {A}.

Definition amap {A B : Type} (h : A -> B) (g : args A) : args B :=
  mkargs (g_named g) (h (g_minx g)) (h (g_maxx g)) (h (g_miny g)) (h (g_maxy g))
         (h (g_a g)) (h (g_b g)) (h (g_c g)) (h (g_d g)) (h (g_e g)) (h (g_f g)).
Definition kmap {A B : Type} (h : A -> B) (q : kind * args A) : kind * args B :=
  (fst q, amap h (snd q)).

(** ** The functions of FluidProperties *)
Section API.
Context {T : Type} {N : Num T}.
Variables (sq ex lg : T -> T) (pw : T -> T -> T).

Fixpoint ev (l : lit) : T :=
  match l with D m e => ndec m e | LMul a b => ev a *~ ev b | LDiv a b => ev a /~ ev b end.

(** A constructed fit, seen through the pointer to its base class. *)
Definition fget (q : kind * fit T) (x y : T) : T := get sq ex lg pw (fst q) (snd q) x y.
Definition build (q : kind * args T) : option (kind * fit T) :=
  option_map (fun o => (fst q, o)) (ctor sq ex lg pw (fst q) (snd q)).

(** FluidProperties.hh:710-713, 728-731, 746-749, 785-788, 803-806, 821-824. *)
Definition get_plain (q : kind * fit T) (t p : T) : T := fget q t p.
(** FluidProperties.hh:766-770. *)
Definition get_enthalpy (cp : kind * fit T) (t p : T) : T := fget cp t p *~ t.
(** FluidProperties.hh:841-851. *)
Definition get_pressure (q : kind * fit T) (t rho : T) : T :=
  let r := fget q t rho in if r <~ neps then neps else r.
(** FluidProperties.hh:867-871. *)
Definition get_temperature (q : kind * fit T) (h p : T) : T := fget q h p.
(** FluidProperties.hh:886-889. *)
Definition get_psat (tc : T) (q : kind * fit T) (t : T) : T :=
  pw (ndec 10 0) (fget q (tc /~ nmax t neps) n0).
(** FluidProperties.hh:904-908. *)
Definition get_tsat (tc : T) (q : kind * fit T) (p : T) : T := tc /~ fget q p n0.
(** FluidProperties.hh:923-926. *)
Definition get_hvap (tc : T) (q : kind * fit T) (t : T) : T := fget q (t /~ tc) n0.
End API.

(** ** The defined fluids.  The numbers on the right are lines of FluidProperties.cpp. *)
Definition z0 : lit := D 0 0.
Definition fitDensityCO :=
  (Quotient, mkargs true (D 6816 (-2)) (D 2 3) (D 1 (-64)) (D 1 6) (LDiv (D 280101 (-4)) (D
   8314472 (-6))) z0 z0 z0 z0 z0). (* :379 *)
Definition fitViscosityCO :=
  (Linear, mkargs true (D 6816 (-2)) (D 2 3) z0 z0 (D 314819375 (-14)) (D 46557125 (-15)) z0 z0
   z0 z0). (* :380 *)
Definition fitSpecificHeatCO :=
  (Linear, mkargs true (D 6816 (-2)) (D 2 3) z0 z0 (D 106251339 (-5)) (D (-304107143) (-10)) z0
   z0 z0 z0). (* :381 *)
Definition fitThermalConductivityCO :=
  (Linear, mkargs true (D 6816 (-2)) (D 2 3) z0 z0 (D 396573214 (-11)) (D 727682143 (-13)) z0
   z0 z0 z0). (* :382 *)
Definition fitPrandtlNumberCO :=
  (Linear, mkargs true (D 6816 (-2)) (D 2 3) z0 z0 (D 736597866 (-9)) (D (-111462612) (-12)) z0
   z0 z0 z0). (* :383 *)
Definition fitAdiabaticIndexCO :=
  (Linear, mkargs true (D 6816 (-2)) (D 2 3) z0 z0 (D 143242613 (-8)) (D (-944340853) (-13)) z0
   z0 z0 z0). (* :384 *)
Definition fitPressureCO :=
  (Product, mkargs true (D 6816 (-2)) (D 2 3) (D 1 (-64)) (D 1 6) (LDiv (D 8314472 (-6)) (D
   280101 (-4))) z0 z0 z0 z0 z0). (* :385 *)
Definition fitTemperatureCO :=
  (QuadraticRoot, mkargs true (D 1 2) (D 3 6) z0 z0 (D 106251339 (-5)) (D (-304107143) (-10))
   z0 z0 z0 z0). (* :386 *)
Definition fitSaturationPressureCO :=
  (Quadratic, mkargs true (D 1 0) (LDiv (D 13286 (-2)) (D 6816 (-2))) z0 z0 (D 5904077 (-6)) (D
   (-2314267) (-6)) (D (-5184318) (-8)) z0 z0 z0). (* :387 *)
Definition fitSaturationTemperatureCO :=
  (Tsat, mkargs true (D 1570513 (-5)) (D 345117 (-2)) z0 z0 (D 5904077 (-6)) (D (-2314267)
   (-6)) (D (-5184318) (-8)) z0 z0 z0). (* :388 *)
Definition fitHeatOfVaporizationCO :=
  (Hvap, mkargs true (LDiv (D 6816 (-2)) (D 13286 (-2))) (D 1 0) z0 z0 (D 282398 (-3)) (D
   (-191) (-3)) (D 409709 (-6)) z0 z0 z0). (* :389 *)
Definition ft_CO : ftype lit := mkftype true (D 280101 (-4)) (D 13286 (-2))
  (Some fitDensityCO) (Some fitPressureCO)
  fitViscosityCO fitSpecificHeatCO fitThermalConductivityCO fitPrandtlNumberCO
  fitAdiabaticIndexCO fitTemperatureCO fitSaturationPressureCO fitSaturationTemperatureCO
  fitHeatOfVaporizationCO. (* :900 *)
Definition fitDensityCO2 :=
  (Quotient, mkargs true (D 1 2) (D 2 3) (D 1 (-64)) (D 1 6) (LDiv (D 440095 (-4)) (D 8314472
   (-6))) z0 z0 z0 z0 z0). (* :395 *)
Definition fitViscosityCO2 :=
  (Linear, mkargs true (D 1 2) (D 2 3) z0 z0 (D 388349774 (-14)) (D 368261797 (-16)) z0 z0 z0
   z0). (* :396 *)
Definition fitSpecificHeatCO2 :=
  (Linear, mkargs true (D 1 2) (D 2 3) z0 z0 (D 694715529 (-6)) (D 522732574 (-9)) z0 z0 z0
   z0). (* :397 *)
Definition fitThermalConductivityCO2 :=
  (Linear, mkargs true (D 1 2) (D 2 3) z0 z0 (D (-552142048) (-11)) (D 751590898 (-13)) z0 z0
   z0 z0). (* :398 *)
Definition fitPrandtlNumberCO2 :=
  (Linear, mkargs true (D 1 2) (D 2 3) z0 z0 (D 785757975 (-9)) (D (-653671274) (-13)) z0 z0 z0
   z0). (* :399 *)
Definition fitAdiabaticIndexCO2 :=
  (Linear, mkargs true (D 1 2) (D 2 3) z0 z0 (D 135140794 (-8)) (D (-167755018) (-12)) z0 z0 z0
   z0). (* :400 *)
Definition fitPressureCO2 :=
  (Product, mkargs true (D 1 2) (D 2 3) (D 1 (-64)) (D 1 6) (LDiv (D 8314472 (-6)) (D 440095
   (-4))) z0 z0 z0 z0 z0). (* :401 *)
Definition fitTemperatureCO2 :=
  (QuadraticRoot, mkargs true (D 1 2) (D 1 7) z0 z0 (D 694715529 (-6)) (D 522732574 (-9)) z0 z0
   z0 z0). (* :402 *)
Definition fitSaturationPressureCO2 :=
  (Quadratic, mkargs true (D 1 0) (LDiv (D 304128 (-3)) (D 1 2)) z0 z0 (D 6671213 (-6)) (D
   (-2778967) (-6)) (D (-269122) (-7)) z0 z0 z0). (* :403 *)
Definition fitSaturationTemperatureCO2 :=
  (Tsat, mkargs true (D 9347056 (-9)) (D 7333882 (-3)) z0 z0 (D 6671213 (-6)) (D (-2778967)
   (-6)) (D (-269122) (-7)) z0 z0 z0). (* :404 *)
Definition fitHeatOfVaporizationCO2 :=
  (Hvap, mkargs true (LDiv (D 1 2) (D 304128 (-3))) (D 1 0) z0 z0 (D 573863 (-3)) (D (-14)
   (-3)) (D 404154 (-6)) z0 z0 z0). (* :405 *)
Definition ft_CO2 : ftype lit := mkftype true (D 440095 (-4)) (D 304128 (-3))
  (Some fitDensityCO2) (Some fitPressureCO2)
  fitViscosityCO2 fitSpecificHeatCO2 fitThermalConductivityCO2 fitPrandtlNumberCO2
  fitAdiabaticIndexCO2 fitTemperatureCO2 fitSaturationPressureCO2 fitSaturationTemperatureCO2
  fitHeatOfVaporizationCO2. (* :910 *)
Definition fitDensityH2O :=
  (Quotient, mkargs true (D 1 2) (D 2 3) (D 1 (-64)) (D 1 6) (LDiv (D 180153 (-4)) (D 8314472
   (-6))) z0 z0 z0 z0 z0). (* :411 *)
Definition fitViscosityH2O :=
  (Linear, mkargs true (D 1 2) (D 2 3) z0 z0 (D (-248944407) (-14)) (D 394663357 (-16)) z0 z0
   z0 z0). (* :412 *)
Definition fitSpecificHeatH2O :=
  (Linear, mkargs true (D 1 2) (D 2 3) z0 z0 (D 181255704 (-5)) (D 515364152 (-9)) z0 z0 z0
   z0). (* :413 *)
Definition fitThermalConductivityH2O :=
  (Linear, mkargs true (D 1 2) (D 2 3) z0 z0 (D (-999) (-5)) (D 1 (-4)) z0 z0 z0 z0). (* :414
   *)
Definition fitPrandtlNumberH2O :=
  (Linear, mkargs true (D 1 2) (D 2 3) z0 z0 (D 105092089 (-8)) (D 147582216 (-12)) z0 z0 z0
   z0). (* :415 *)
Definition fitAdiabaticIndexH2O :=
  (Linear, mkargs true (D 1 2) (D 2 3) z0 z0 (D 137818452 (-8)) (D (-118125416) (-12)) z0 z0 z0
   z0). (* :416 *)
Definition fitPressureH2O :=
  (Product, mkargs true (D 1 2) (D 2 3) (D 1 (-64)) (D 1 6) (LDiv (D 8314472 (-6)) (D 180153
   (-4))) z0 z0 z0 z0 z0). (* :417 *)
Definition fitTemperatureH2O :=
  (QuadraticRoot, mkargs true (D 1 2) (D 1 7) z0 z0 (D 181255704 (-5)) (D 515364152 (-9)) z0 z0
   z0 z0). (* :418 *)
Definition fitSaturationPressureH2O :=
  (Quadratic, mkargs true (D 1 0) (LDiv (D 647096 (-3)) (D 1 2)) z0 z0 (D 7105911 (-6)) (D
   (-2543893) (-6)) (D (-2302306) (-7)) z0 z0 z0). (* :419 *)
Definition fitSaturationTemperatureH2O :=
  (Tsat, mkargs true (D 1009159 (-25)) (D 2146776 (-2)) z0 z0 (D 7105911 (-6)) (D (-2543893)
   (-6)) (D (-2302306) (-7)) z0 z0 z0). (* :420 *)
Definition fitHeatOfVaporizationH2O :=
  (Hvap, mkargs true (LDiv (D 1 2) (D 647096 (-3))) (D 1 0) z0 z0 (D 28998 (-1)) (D (-178)
   (-3)) (D 406871 (-6)) z0 z0 z0). (* :421 *)
Definition ft_H2O : ftype lit := mkftype true (D 180153 (-4)) (D 647096 (-3))
  (Some fitDensityH2O) (Some fitPressureH2O)
  fitViscosityH2O fitSpecificHeatH2O fitThermalConductivityH2O fitPrandtlNumberH2O
  fitAdiabaticIndexH2O fitTemperatureH2O fitSaturationPressureH2O fitSaturationTemperatureH2O
  fitHeatOfVaporizationH2O. (* :920 *)
Definition fitDensityN2 :=
  (Quotient, mkargs true (D 64 0) (D 2 3) (D 1 (-64)) (D 1 6) (LDiv (D 280134 (-4)) (D 8314472
   (-6))) z0 z0 z0 z0 z0). (* :427 *)
Definition fitViscosityN2 :=
  (Linear, mkargs true (D 64 0) (D 2 3) z0 z0 (D 811293165 (-14)) (D 288907996 (-16)) z0 z0 z0
   z0). (* :428 *)
Definition fitSpecificHeatN2 :=
  (Linear, mkargs true (D 64 0) (D 2 3) z0 z0 (D 101354736 (-5)) (D 131741253 (-9)) z0 z0 z0
   z0). (* :429 *)
Definition fitThermalConductivityN2 :=
  (Linear, mkargs true (D 64 0) (D 2 3) z0 z0 (D 909145525 (-11)) (D 517493648 (-13)) z0 z0 z0
   z0). (* :430 *)
Definition fitPrandtlNumberN2 :=
  (Linear, mkargs true (D 64 0) (D 2 3) z0 z0 (D 725068578 (-9)) (D 966001186 (-14)) z0 z0 z0
   z0). (* :431 *)
Definition fitAdiabaticIndexN2 :=
  (Linear, mkargs true (D 64 0) (D 2 3) z0 z0 (D 142161068 (-8)) (D (-608287084) (-13)) z0 z0
   z0 z0). (* :432 *)
Definition fitPressureN2 :=
  (Product, mkargs true (D 64 0) (D 2 3) (D 1 (-64)) (D 1 6) (LDiv (D 8314472 (-6)) (D 280134
   (-4))) z0 z0 z0 z0 z0). (* :433 *)
Definition fitTemperatureN2 :=
  (QuadraticRoot, mkargs true (D 1 2) (D 1 7) z0 z0 (D 101354736 (-5)) (D 131741253 (-9)) z0 z0
   z0 z0). (* :434 *)
Definition fitSaturationPressureN2 :=
  (Quadratic, mkargs true (D 1 0) (LDiv (D 126192 (-3)) (D 64 0)) z0 z0 (D 5891833 (-6)) (D
   (-233571) (-5)) (D (-305478) (-7)) z0 z0 z0). (* :435 *)
Definition fitSaturationTemperatureN2 :=
  (Tsat, mkargs true (D 1471071 (-5)) (D 3354095 (-3)) z0 z0 (D 5891833 (-6)) (D (-233571)
   (-5)) (D (-305478) (-7)) z0 z0 z0). (* :436 *)
Definition fitHeatOfVaporizationN2 :=
  (Hvap, mkargs true (LDiv (D 64 0) (D 126192 (-3))) (D 1 0) z0 z0 (D 25428 (-2)) (D (-245)
   (-3)) (D 415032 (-6)) z0 z0 z0). (* :437 *)
Definition ft_N2 : ftype lit := mkftype true (D 280134 (-4)) (D 126192 (-3))
  (Some fitDensityN2) (Some fitPressureN2)
  fitViscosityN2 fitSpecificHeatN2 fitThermalConductivityN2 fitPrandtlNumberN2
  fitAdiabaticIndexN2 fitTemperatureN2 fitSaturationPressureN2 fitSaturationTemperatureN2
  fitHeatOfVaporizationN2. (* :930 *)
Definition fitDensityO2 :=
  (Quotient, mkargs true (D 545 (-1)) (D 2 3) (D 1 (-64)) (D 1 6) (LDiv (D 319988 (-4)) (D
   8314472 (-6))) z0 z0 z0 z0 z0). (* :443 *)
Definition fitViscosityO2 :=
  (Linear, mkargs true (D 545 (-1)) (D 2 3) z0 z0 (D 63071293 (-13)) (D 44094575 (-15)) z0 z0
   z0 z0). (* :444 *)
Definition fitSpecificHeatO2 :=
  (Linear, mkargs true (D 545 (-1)) (D 2 3) z0 z0 (D 874505007 (-6)) (D 20138652 (-8)) z0 z0 z0
   z0). (* :445 *)
Definition fitThermalConductivityO2 :=
  (Linear, mkargs true (D 545 (-1)) (D 2 3) z0 z0 (D 303907634 (-11)) (D 772063714 (-13)) z0 z0
   z0 z0). (* :446 *)
Definition fitPrandtlNumberO2 :=
  (Linear, mkargs true (D 545 (-1)) (D 2 3) z0 z0 (D 74857995 (-8)) (D (-893526407) (-13)) z0
   z0 z0 z0). (* :447 *)
Definition fitAdiabaticIndexO2 :=
  (Linear, mkargs true (D 545 (-1)) (D 2 3) z0 z0 (D 143468762 (-8)) (D (-124059159) (-12)) z0
   z0 z0 z0). (* :448 *)
Definition fitPressureO2 :=
  (Product, mkargs true (D 545 (-1)) (D 2 3) (D 1 (-64)) (D 1 6) (LDiv (D 8314472 (-6)) (D
   319988 (-4))) z0 z0 z0 z0 z0). (* :449 *)
Definition fitTemperatureO2 :=
  (QuadraticRoot, mkargs true (D 1 2) (D 1 7) z0 z0 (D 874505007 (-6)) (D 20138652 (-8)) z0 z0
   z0 z0). (* :450 *)
Definition fitSaturationPressureO2 :=
  (Quadratic, mkargs true (D 1 0) (LDiv (D 154581 (-3)) (D 545 (-1))) z0 z0 (D 5923722 (-6)) (D
   (-2154806) (-6)) (D (-7725064) (-8)) z0 z0 z0). (* :451 *)
Definition fitSaturationTemperatureO2 :=
  (Tsat, mkargs true (D 1550494 (-7)) (D 4916608 (-3)) z0 z0 (D 5923722 (-6)) (D (-2154806)
   (-6)) (D (-7725064) (-8)) z0 z0 z0). (* :452 *)
Definition fitHeatOfVaporizationO2 :=
  (Hvap, mkargs true (LDiv (D 545 (-1)) (D 154581 (-3))) (D 1 0) z0 z0 (D 268086 (-3)) (D
   (-217) (-3)) (D 405495 (-6)) z0 z0 z0). (* :453 *)
Definition ft_O2 : ftype lit := mkftype true (D 319988 (-4)) (D 154581 (-3))
  (Some fitDensityO2) (Some fitPressureO2)
  fitViscosityO2 fitSpecificHeatO2 fitThermalConductivityO2 fitPrandtlNumberO2
  fitAdiabaticIndexO2 fitTemperatureO2 fitSaturationPressureO2 fitSaturationTemperatureO2
  fitHeatOfVaporizationO2. (* :940 *)
Definition fitDensityNH3 :=
  (Quotient, mkargs true (D 1 2) (D 2 3) (D 1 (-64)) (D 1 6) (LDiv (D 170305 (-4)) (D 8314472
   (-6))) z0 z0 z0 z0 z0). (* :459 *)
Definition fitViscosityNH3 :=
  (Linear, mkargs true (D 1 2) (D 2 3) z0 z0 (D (-11069085) (-13)) (D 377945896 (-16)) z0 z0 z0
   z0). (* :460 *)
Definition fitSpecificHeatNH3 :=
  (Linear, mkargs true (D 1 2) (D 2 3) z0 z0 (D 177245664 (-5)) (D 15573417 (-7)) z0 z0 z0 z0).
   (* :461 *)
Definition fitThermalConductivityNH3 :=
  (Linear, mkargs true (D 1 2) (D 2 3) z0 z0 (D (-117887603) (-10)) (D 126920717 (-12)) z0 z0
   z0 z0). (* :462 *)
Definition fitPrandtlNumberNH3 :=
  (Linear, mkargs true (D 1 2) (D 2 3) z0 z0 (D 82461307 (-8)) (D 1632101 (-10)) z0 z0 z0 z0).
   (* :463 *)
Definition fitAdiabaticIndexNH3 :=
  (Linear, mkargs true (D 1 2) (D 2 3) z0 z0 (D 141192763 (-8)) (D (-31046577) (-11)) z0 z0 z0
   z0). (* :464 *)
Definition fitPressureNH3 :=
  (Product, mkargs true (D 1 2) (D 2 3) (D 1 (-64)) (D 1 6) (LDiv (D 8314472 (-6)) (D 170305
   (-4))) z0 z0 z0 z0 z0). (* :465 *)
Definition fitTemperatureNH3 :=
  (QuadraticRoot, mkargs true (D 1 2) (D 2 7) z0 z0 (D 177245664 (-5)) (D 15573417 (-7)) z0 z0
   z0 z0). (* :466 *)
Definition fitSaturationPressureNH3 :=
  (Quadratic, mkargs true (D 1 0) (LDiv (D 4054 (-1)) (D 1 2)) z0 z0 (D 6686549 (-6)) (D
   (-2451487) (-6)) (D (-1891818) (-7)) z0 z0 z0). (* :467 *)
Definition fitSaturationTemperatureNH3 :=
  (Tsat, mkargs true (D 435548 (-12)) (D 1111426 (-2)) z0 z0 (D 6686549 (-6)) (D (-2451487)
   (-6)) (D (-1891818) (-7)) z0 z0 z0). (* :468 *)
Definition fitHeatOfVaporizationNH3 :=
  (Hvap, mkargs true (LDiv (D 1 2) (D 4054 (-1))) (D 1 0) z0 z0 (D 179573 (-2)) (D (-202) (-3))
   (D 437261 (-6)) z0 z0 z0). (* :469 *)
Definition ft_NH3 : ftype lit := mkftype true (D 170305 (-4)) (D 4054 (-1))
  (Some fitDensityNH3) (Some fitPressureNH3)
  fitViscosityNH3 fitSpecificHeatNH3 fitThermalConductivityNH3 fitPrandtlNumberNH3
  fitAdiabaticIndexNH3 fitTemperatureNH3 fitSaturationPressureNH3 fitSaturationTemperatureNH3
  fitHeatOfVaporizationNH3. (* :950 *)
Definition fitDensityH2 :=
  (Quotient, mkargs true (D 13957 (-3)) (D 2 3) (D 1 (-64)) (D 1 6) (LDiv (D 201588 (-5)) (D
   8314472 (-6))) z0 z0 z0 z0 z0). (* :475 *)
Definition fitViscosityH2 :=
  (Linear, mkargs true (D 13957 (-3)) (D 2 3) z0 z0 (D 344431431 (-14)) (D 172499615 (-16)) z0
   z0 z0 z0). (* :476 *)
Definition fitSpecificHeatH2 :=
  (Linear, mkargs true (D 13957 (-3)) (D 2 3) z0 z0 (D 816682118 (-5)) (D 211904814 (-7)) z0 z0
   z0 z0). (* :477 *)
Definition fitThermalConductivityH2 :=
  (Linear, mkargs true (D 13957 (-3)) (D 2 3) z0 z0 (D 320511417 (-10)) (D 496902311 (-12)) z0
   z0 z0 z0). (* :478 *)
Definition fitPrandtlNumberH2 :=
  (Linear, mkargs true (D 13957 (-3)) (D 2 3) z0 z0 (D 540516454 (-9)) (D 578550413 (-12)) z0
   z0 z0 z0). (* :479 *)
Definition fitAdiabaticIndexH2 :=
  (Linear, mkargs true (D 13957 (-3)) (D 2 3) z0 z0 (D 148410357 (-8)) (D (-139888479) (-12))
   z0 z0 z0 z0). (* :480 *)
Definition fitPressureH2 :=
  (Product, mkargs true (D 13957 (-3)) (D 2 3) (D 1 (-64)) (D 1 6) (LDiv (D 8314472 (-6)) (D
   201588 (-5))) z0 z0 z0 z0 z0). (* :481 *)
Definition fitTemperatureH2 :=
  (QuadraticRoot, mkargs true (D 1 2) (D 2 8) z0 z0 (D 816682118 (-5)) (D 211904814 (-7)) z0 z0
   z0 z0). (* :482 *)
Definition fitSaturationPressureH2 :=
  (Quadratic, mkargs true (D 1 0) (LDiv (D 33145 (-3)) (D 13957 (-3))) z0 z0 (D 5137677 (-6))
   (D (-2211171) (-6)) (D 1752336 (-7)) z0 z0 z0). (* :483 *)
Definition fitSaturationTemperatureH2 :=
  (Tsat, mkargs true (D 7496468 (-6)) (D 1263978 (-3)) z0 z0 (D 5137677 (-6)) (D (-2211171)
   (-6)) (D 1752336 (-7)) z0 z0 z0). (* :484 *)
Definition fitHeatOfVaporizationH2 :=
  (Hvap, mkargs true (LDiv (D 13957 (-3)) (D 33145 (-3))) (D 1 0) z0 z0 (D 402392 (-3)) (D
   (-893) (-3)) (D 468214 (-6)) z0 z0 z0). (* :485 *)
Definition ft_H2 : ftype lit := mkftype true (D 201588 (-5)) (D 33145 (-3))
  (Some fitDensityH2) (Some fitPressureH2)
  fitViscosityH2 fitSpecificHeatH2 fitThermalConductivityH2 fitPrandtlNumberH2
  fitAdiabaticIndexH2 fitTemperatureH2 fitSaturationPressureH2 fitSaturationTemperatureH2
  fitHeatOfVaporizationH2. (* :960 *)
Definition fitDensityCH4 :=
  (Quotient, mkargs true (D 91 0) (D 2 3) (D 1 (-64)) (D 1 6) (LDiv (D 160425 (-4)) (D 8314472
   (-6))) z0 z0 z0 z0 z0). (* :491 *)
Definition fitViscosityCH4 :=
  (Linear, mkargs true (D 91 0) (D 2 3) z0 z0 (D (-969180981) (-16)) (D 45905687 (-15)) z0 z0
   z0 z0). (* :492 *)
Definition fitSpecificHeatCH4 :=
  (Linear, mkargs true (D 91 0) (D 2 3) z0 z0 (D 157965714 (-5)) (D 335717653 (-8)) z0 z0 z0
   z0). (* :493 *)
Definition fitThermalConductivityCH4 :=
  (Linear, mkargs true (D 91 0) (D 2 3) z0 z0 (D (-185036584) (-10)) (D 233789538 (-12)) z0 z0
   z0 z0). (* :494 *)
Definition fitPrandtlNumberCH4 :=
  (Linear, mkargs true (D 91 0) (D 2 3) z0 z0 (D 834043842 (-9)) (D (-347214804) (-12)) z0 z0
   z0 z0). (* :495 *)
Definition fitAdiabaticIndexCH4 :=
  (Linear, mkargs true (D 91 0) (D 2 3) z0 z0 (D 143685484 (-8)) (D (-564753568) (-12)) z0 z0
   z0 z0). (* :496 *)
Definition fitPressureCH4 :=
  (Product, mkargs true (D 91 0) (D 2 3) (D 1 (-64)) (D 1 6) (LDiv (D 8314472 (-6)) (D 160425
   (-4))) z0 z0 z0 z0 z0). (* :497 *)
Definition fitTemperatureCH4 :=
  (QuadraticRoot, mkargs true (D 1 2) (D 2 7) z0 z0 (D 157965714 (-5)) (D 335717653 (-8)) z0 z0
   z0 z0). (* :498 *)
Definition fitSaturationPressureCH4 :=
  (Quadratic, mkargs true (D 1 0) (LDiv (D 190564 (-3)) (D 91 0)) z0 z0 (D 5978649 (-6)) (D
   (-2316399) (-6)) (D (-8641538) (-9)) z0 z0 z0). (* :499 *)
Definition fitSaturationTemperatureCH4 :=
  (Tsat, mkargs true (D 1230152 (-5)) (D 45041 (-1)) z0 z0 (D 5978649 (-6)) (D (-2316399) (-6))
   (D (-8641538) (-9)) z0 z0 z0). (* :500 *)
Definition fitHeatOfVaporizationCH4 :=
  (Hvap, mkargs true (LDiv (D 91 0) (D 190564 (-3))) (D 1 0) z0 z0 (D 622485 (-3)) (D (-272)
   (-3)) (D 408189 (-6)) z0 z0 z0). (* :501 *)
Definition ft_CH4 : ftype lit := mkftype true (D 160425 (-4)) (D 190564 (-3))
  (Some fitDensityCH4) (Some fitPressureCH4)
  fitViscosityCH4 fitSpecificHeatCH4 fitThermalConductivityCH4 fitPrandtlNumberCH4
  fitAdiabaticIndexCH4 fitTemperatureCH4 fitSaturationPressureCH4 fitSaturationTemperatureCH4
  fitHeatOfVaporizationCH4. (* :970 *)
Definition fitDensityHCL :=
  (Quotient, mkargs true (D 1 2) (D 2 3) (D 1 (-64)) (D 1 6) (LDiv (D 364611 (-4)) (D 8314472
   (-6))) z0 z0 z0 z0 z0). (* :507 *)
Definition fitViscosityHCL :=
  (Linear, mkargs true (D 1 2) (D 2 3) z0 z0 (D 220054874 (-14)) (D 162474889 (-17)) z0 z0 z0
   z0). (* :508 *)
Definition fitSpecificHeatHCL :=
  (Linear, mkargs true (D 1 2) (D 2 3) z0 z0 (D 77241455 (-5)) (D 100351086 (-9)) z0 z0 z0 z0).
   (* :509 *)
Definition fitThermalConductivityHCL :=
  (Linear, mkargs true (D 1 2) (D 2 3) z0 z0 (D 552005444 (-12)) (D 461274044 (-13)) z0 z0 z0
   z0). (* :510 *)
Definition fitPrandtlNumberHCL :=
  (Linear, mkargs true (D 1 2) (D 2 3) z0 z0 (D 86 (-2)) (D 0 0) z0 z0 z0 z0). (* :511 *)
Definition fitAdiabaticIndexHCL :=
  (Linear, mkargs true (D 1 2) (D 2 3) z0 z0 (D 14 (-1)) (D 0 0) z0 z0 z0 z0). (* :512 *)
Definition fitPressureHCL :=
  (Product, mkargs true (D 1 2) (D 2 3) (D 1 (-64)) (D 1 6) (LDiv (D 8314472 (-6)) (D 364611
   (-4))) z0 z0 z0 z0 z0). (* :513 *)
Definition fitTemperatureHCL :=
  (QuadraticRoot, mkargs true (D 1 2) (D 1 7) z0 z0 (D 77241455 (-5)) (D 100351086 (-9)) z0 z0
   z0 z0). (* :514 *)
Definition fitSaturationPressureHCL :=
  (Quadratic, mkargs true (D 1 0) (LDiv (D 32468 (-2)) (D 1 2)) z0 z0 (D 6423687 (-6)) (D
   (-2436504) (-6)) (D (-769824) (-7)) z0 z0 z0). (* :515 *)
Definition fitSaturationTemperatureHCL :=
  (Tsat, mkargs true (D 5027122 (-9)) (D 8132054 (-3)) z0 z0 (D 6423687 (-6)) (D (-2436504)
   (-6)) (D (-769824) (-7)) z0 z0 z0). (* :516 *)
Definition fitHeatOfVaporizationHCL :=
  (Hvap, mkargs true (LDiv (D 1 2) (D 32468 (-2))) (D 1 0) z0 z0 (D 8160349 (-4)) (D 4209399
   (-7)) (D 4209399 (-7)) z0 z0 z0). (* :517 *)
Definition ft_HCL : ftype lit := mkftype true (D 364611 (-4)) (D 32468 (-2))
  (Some fitDensityHCL) (Some fitPressureHCL)
  fitViscosityHCL fitSpecificHeatHCL fitThermalConductivityHCL fitPrandtlNumberHCL
  fitAdiabaticIndexHCL fitTemperatureHCL fitSaturationPressureHCL fitSaturationTemperatureHCL
  fitHeatOfVaporizationHCL. (* :980 *)
Definition fitDensityHCN :=
  (Quotient, mkargs true (D 1 2) (D 2 3) (D 1 (-64)) (D 1 6) (LDiv (D 270254 (-4)) (D 8314472
   (-6))) z0 z0 z0 z0 z0). (* :523 *)
Definition fitViscosityHCN :=
  (Linear, mkargs true (D 1 2) (D 2 3) z0 z0 (D (-14) (-7)) (D 143666098 (-16)) z0 z0 z0 z0).
   (* :524 *)
Definition fitSpecificHeatHCN :=
  (Linear, mkargs true (D 1 2) (D 2 3) z0 z0 (D 113178924 (-5)) (D 523263873 (-9)) z0 z0 z0
   z0). (* :525 *)
Definition fitThermalConductivityHCN :=
  (Linear, mkargs true (D 1 2) (D 2 3) z0 z0 (D (-78) (-4)) (D 78279264 (-12)) z0 z0 z0 z0). (*
   :526 *)
Definition fitPrandtlNumberHCN :=
  (Linear, mkargs true (D 1 2) (D 2 3) z0 z0 (D 79 (-2)) (D 0 0) z0 z0 z0 z0). (* :527 *)
Definition fitAdiabaticIndexHCN :=
  (Linear, mkargs true (D 1 2) (D 2 3) z0 z0 (D 13 (-1)) (D 0 0) z0 z0 z0 z0). (* :528 *)
Definition fitPressureHCN :=
  (Product, mkargs true (D 1 2) (D 2 3) (D 1 (-64)) (D 1 6) (LDiv (D 8314472 (-6)) (D 270254
   (-4))) z0 z0 z0 z0 z0). (* :529 *)
Definition fitTemperatureHCN :=
  (QuadraticRoot, mkargs true (D 1 2) (D 1 7) z0 z0 (D 113178924 (-5)) (D 523263873 (-9)) z0 z0
   z0 z0). (* :530 *)
Definition fitSaturationPressureHCN :=
  (Quadratic, mkargs true (D 1 0) (LDiv (D 31938 (-2)) (D 1 2)) z0 z0 (D 6665582 (-6)) (D
   (-4175167) (-6)) (D (-1724629) (-7)) z0 z0 z0). (* :531 *)
Definition fitSaturationTemperatureHCN :=
  (Tsat, mkargs true (D 3730347 (-15)) (D 2079466 (-4)) z0 z0 (D 6665582 (-6)) (D (-4175167)
   (-6)) (D (-1724629) (-7)) z0 z0 z0). (* :532 *)
Definition fitHeatOfVaporizationHCN :=
  (Hvap, mkargs true (LDiv (D 1 2) (D 31938 (-2))) (D 1 0) z0 z0 (D 1309447 (-3)) (D 9207613
   (-8)) (D 9207613 (-8)) z0 z0 z0). (* :533 *)
Definition ft_HCN : ftype lit := mkftype true (D 270254 (-4)) (D 31938 (-2))
  (Some fitDensityHCN) (Some fitPressureHCN)
  fitViscosityHCN fitSpecificHeatHCN fitThermalConductivityHCN fitPrandtlNumberHCN
  fitAdiabaticIndexHCN fitTemperatureHCN fitSaturationPressureHCN fitSaturationTemperatureHCN
  fitHeatOfVaporizationHCN. (* :990 *)
Definition fitDensityHe :=
  (Quotient, mkargs true (D 21768 (-4)) (D 15 2) (D 1 (-64)) (D 1 6) (LDiv (D 4002602 (-6)) (D
   8314472 (-6))) z0 z0 z0 z0 z0). (* :539 *)
Definition fitViscosityHe :=
  (Cubic, mkargs true (D 21768 (-4)) (D 15 2) z0 z0 (D 3904441 (-12)) (D 5985034 (-14)) (D
   (-2490652) (-17)) (D 7095312 (-21)) z0 z0). (* :540 *)
Definition fitSpecificHeatHe :=
  (Linear, mkargs true (D 5 1) (D 15 2) z0 z0 (D 51932 (-1)) (D (-41) (-4)) z0 z0 z0 z0). (*
   :541 *)
Definition fitThermalConductivityHe :=
  (Cubic, mkargs true (D 21768 (-4)) (D 15 2) z0 z0 (D 2710026 (-8)) (D 4852526 (-10)) (D
   (-2162608) (-13)) (D 6251157 (-17)) z0 z0). (* :542 *)
Definition fitPrandtlNumberHe :=
  (Cubic, mkargs true (D 21768 (-4)) (D 15 2) z0 z0 (D 2808356 (-6)) (D (-7476181) (-10)) (D
   100141 (-11)) (D (-3774658) (-16)) z0 z0). (* :543 *)
Definition fitAdiabaticIndexHe :=
  (Linear, mkargs true (D 21768 (-4)) (D 15 2) z0 z0 (D 16667 (-4)) (D 0 0) z0 z0 z0 z0). (*
   :544 *)
Definition fitPressureHe :=
  (Product, mkargs true (D 21768 (-4)) (D 15 2) (D 1 (-64)) (D 1 6) (LDiv (D 8314472 (-6)) (D
   4002602 (-6))) z0 z0 z0 z0 z0). (* :545 *)
Definition fitTemperatureHe :=
  (QuadraticRoot, mkargs true (D 1 2) (D 1 8) z0 z0 (D 51932 (-1)) (D (-41) (-4)) z0 z0 z0 z0).
   (* :546 *)
Definition fitSaturationPressureHe :=
  (Quadratic, mkargs true (D 1 0) (LDiv (D 51953 (-4)) (D 21768 (-4))) z0 z0 (D 4055375 (-6))
   (D (-1930662) (-6)) (D 2191484 (-7)) z0 z0 z0). (* :547 *)
Definition fitSaturationTemperatureHe :=
  (Tsat, mkargs true (D 4964031 (-6)) (D 22073 (-2)) z0 z0 (D 4055375 (-6)) (D (-1930662) (-6))
   (D 2191484 (-7)) z0 z0 z0). (* :548 *)
Definition fitHeatOfVaporizationHe :=
  (Hvap, mkargs true (LDiv (D 21768 (-4)) (D 51953 (-4))) (D 1 0) z0 z0 (D 198 (-1)) (D (-927)
   (-3)) (D 421274 (-6)) z0 z0 z0). (* :549 *)
Definition ft_HE : ftype lit := mkftype true (D 4002602 (-6)) (D 51953 (-4))
  (Some fitDensityHe) (Some fitPressureHe)
  fitViscosityHe fitSpecificHeatHe fitThermalConductivityHe fitPrandtlNumberHe
  fitAdiabaticIndexHe fitTemperatureHe fitSaturationPressureHe fitSaturationTemperatureHe
  fitHeatOfVaporizationHe. (* :1000 *)
Definition fitDensityAr :=
  (Quotient, mkargs true (D 838058 (-4)) (D 2 3) (D 1 (-64)) (D 1 6) (LDiv (D 39948 (-3)) (D
   8314472 (-6))) z0 z0 z0 z0 z0). (* :555 *)
Definition fitViscosityAr :=
  (Linear, mkargs true (D 838058 (-4)) (D 2 3) z0 z0 (D 82215 (-10)) (D 483741 (-13)) z0 z0 z0
   z0). (* :556 *)
Definition fitSpecificHeatAr :=
  (Linear, mkargs true (D 838058 (-4)) (D 2 3) z0 z0 (D 5250021 (-4)) (D (-9446) (-6)) z0 z0 z0
   z0). (* :557 *)
Definition fitThermalConductivityAr :=
  (Linear, mkargs true (D 838058 (-4)) (D 2 3) z0 z0 (D 648678 (-8)) (D 37819 (-9)) z0 z0 z0
   z0). (* :558 *)
Definition fitPrandtlNumberAr :=
  (Linear, mkargs true (D 838058 (-4)) (D 2 3) z0 z0 (D 66988 (-5)) (D (-13235) (-9)) z0 z0 z0
   z0). (* :559 *)
Definition fitAdiabaticIndexAr :=
  (Linear, mkargs true (D 838058 (-4)) (D 2 3) z0 z0 (D 1677 (-3)) (D (-206) (-7)) z0 z0 z0
   z0). (* :560 *)
Definition fitPressureAr :=
  (Product, mkargs true (D 838058 (-4)) (D 2 3) (D 1 (-64)) (D 1 6) (LDiv (D 8314472 (-6)) (D
   39948 (-3))) z0 z0 z0 z0 z0). (* :561 *)
Definition fitTemperatureAr :=
  (QuadraticRoot, mkargs true (D 42284 0) (D 104071 1) z0 z0 (D 5250021 (-4)) (D (-9446) (-6))
   z0 z0 z0 z0). (* :562 *)
Definition fitSaturationPressureAr :=
  (Quadratic, mkargs true (D 1 0) (LDiv (D 150687 (-3)) (D 838058 (-4))) z0 z0 (D 579326396
   (-8)) (D (-20379426) (-7)) (D (-901245) (-7)) z0 z0 z0). (* :563 *)
Definition fitSaturationTemperatureAr :=
  (Tsat, mkargs true (D 687973 (-4)) (D 46259 (-1)) z0 z0 (D 579326396 (-8)) (D (-20379426)
   (-7)) (D (-901245) (-7)) z0 z0 z0). (* :564 *)
Definition fitHeatOfVaporizationAr :=
  (Hvap, mkargs true (LDiv (D 838058 (-4)) (D 150687 (-3))) (D 1 0) z0 z0 (D 1607565 (-3)) (D
   158156 (-5)) (D 158156 (-5)) z0 z0 z0). (* :565 *)
Definition ft_AR : ftype lit := mkftype true (D 39948 (-3)) (D 150687 (-3))
  (Some fitDensityAr) (Some fitPressureAr)
  fitViscosityAr fitSpecificHeatAr fitThermalConductivityAr fitPrandtlNumberAr
  fitAdiabaticIndexAr fitTemperatureAr fitSaturationPressureAr fitSaturationTemperatureAr
  fitHeatOfVaporizationAr. (* :1010 *)
Definition ft_HE_REAL_GAS : ftype lit := mkftype true (D 4002602 (-6)) (D 51953 (-4))
  None None
  fitViscosityHe fitSpecificHeatHe fitThermalConductivityHe fitPrandtlNumberHe
  fitAdiabaticIndexHe fitTemperatureHe fitSaturationPressureHe fitSaturationTemperatureHe
  fitHeatOfVaporizationHe. (* :1020 *)
Definition fitViscosityXe :=
  (Linear, mkargs true (D 1 2) (D 2 3) z0 z0 (D 320493 (-11)) (D 657203 (-13)) z0 z0 z0 z0). (*
   :579 *)
Definition fitSpecificHeatXe :=
  (Linear, mkargs true (D 1 2) (D 2 3) z0 z0 (D 169768 (-3)) (D (-209841) (-7)) z0 z0 z0 z0).
   (* :580 *)
Definition fitThermalConductivityXe :=
  (Linear, mkargs true (D 1 2) (D 2 3) z0 z0 (D 762627 (-9)) (D 157374 (-10)) z0 z0 z0 z0). (*
   :581 *)
Definition fitPrandtlNumberXe :=
  (Linear, mkargs true (D 1 2) (D 2 3) z0 z0 (D 714862 (-6)) (D (-100208) (-9)) z0 z0 z0 z0).
   (* :582 *)
Definition fitAdiabaticIndexXe :=
  (Linear, mkargs true (D 1 2) (D 2 3) z0 z0 (D 170353 (-5)) (D (-62241) (-9)) z0 z0 z0 z0). (*
   :583 *)
Definition fitTemperatureXe :=
  (QuadraticRoot, mkargs true (D 1 2) (D 3 5) z0 z0 (D 169768 (-3)) (D (-209841) (-7)) z0 z0 z0
   z0). (* :585 *)
Definition fitSaturationPressureXe :=
  (Quadratic, mkargs true (D 1 0) (LDiv (D 289733 (-3)) (D 1 2)) z0 z0 (D 6141935 (-6)) (D
   (-2416296) (-6)) (D 3483905 (-8)) z0 z0 z0). (* :586 *)
Definition fitSaturationTemperatureXe :=
  (Tsat, mkargs true (D 271109 (-6)) (D 5754884 (-3)) z0 z0 (D 6141935 (-6)) (D (-2416296)
   (-6)) (D 3483905 (-8)) z0 z0 z0). (* :587 *)
Definition fitHeatOfVaporizationXe :=
  (Hvap, mkargs true (LDiv (D 1 2) (D 289733 (-3))) (D 1 0) z0 z0 (D 115869 (-3)) (D (-281)
   (-3)) (D 418031 (-6)) z0 z0 z0). (* :588 *)
Definition ft_XE_REAL_GAS : ftype lit := mkftype true (D 131293 (-3)) (D 289733 (-3))
  None None
  fitViscosityXe fitSpecificHeatXe fitThermalConductivityXe fitPrandtlNumberXe
  fitAdiabaticIndexXe fitTemperatureXe fitSaturationPressureXe fitSaturationTemperatureXe
  fitHeatOfVaporizationXe. (* :1030 *)
Definition ft_N2_REAL_GAS : ftype lit := mkftype true (D 280134 (-4)) (D 126192 (-3))
  None None
  fitViscosityN2 fitSpecificHeatN2 fitThermalConductivityN2 fitPrandtlNumberN2
  fitAdiabaticIndexN2 fitTemperatureN2 fitSaturationPressureN2 fitSaturationTemperatureN2
  fitHeatOfVaporizationN2. (* :1042 *)
Definition ft_O2_REAL_GAS : ftype lit := mkftype true (D 319988 (-4)) (D 154581 (-3))
  None None
  fitViscosityO2 fitSpecificHeatO2 fitThermalConductivityO2 fitPrandtlNumberO2
  fitAdiabaticIndexO2 fitTemperatureO2 fitSaturationPressureO2 fitSaturationTemperatureO2
  fitHeatOfVaporizationO2. (* :1054 *)
Definition ft_CH4_REAL_GAS : ftype lit := mkftype true (D 160425 (-4)) (D 190564 (-3))
  None None
  fitViscosityCH4 fitSpecificHeatCH4 fitThermalConductivityCH4 fitPrandtlNumberCH4
  fitAdiabaticIndexCH4 fitTemperatureCH4 fitSaturationPressureCH4 fitSaturationTemperatureCH4
  fitHeatOfVaporizationCH4. (* :1066 *)
Definition ft_H2_REAL_GAS : ftype lit := mkftype true (D 201588 (-5)) (D 33145 (-3))
  None None
  fitViscosityH2 fitSpecificHeatH2 fitThermalConductivityH2 fitPrandtlNumberH2
  fitAdiabaticIndexH2 fitTemperatureH2 fitSaturationPressureH2 fitSaturationTemperatureH2
  fitHeatOfVaporizationH2. (* :1079 *)
Definition fitDensityWATER :=
  (QuadLin, mkargs true (D 2 2) (D 47 1) (D 1 (-64)) (D 1 6) (D 7971248 (-4)) (D 7557045 (-9))
   (D 159156 (-5)) (D (-4273648) (-11)) (D (-3100791) (-9)) (D 6311271 (-14))). (* :639 *)
Definition fitViscosityWATER :=
  (Quintic, mkargs true (D 2 2) (D 47 1) z0 z0 (D 470252 (-6)) (D (-5996482) (-9)) (D 3061785
   (-11)) (D (-7808668) (-14)) (D 9936067 (-17)) (D (-5042842) (-20))). (* :641 *)
Definition fitSpecificHeatWATER :=
  (Linear, mkargs true (D 2 2) (D 47 1) z0 z0 (D 416924282 (-5)) (D 758586482 (-10)) z0 z0 z0
   z0). (* :642 *)
Definition fitThermalConductivityWATER :=
  (Linear, mkargs true (D 2 2) (D 47 1) z0 z0 (D 249898518 (-9)) (D 1187923 (-9)) z0 z0 z0 z0).
   (* :643 *)
Definition fitPrandtlNumberWATER :=
  (Quintic, mkargs true (D 2 2) (D 47 1) z0 z0 (D 4154213 (-3)) (D (-5320634) (-5)) (D 2725191
   (-7)) (D (-6966592) (-10)) (D 888082 (-12)) (D (-451381) (-15))). (* :644 *)
Definition fitAdiabaticIndexWATER :=
  (Linear, mkargs true (D 2 2) (D 47 1) z0 z0 (D 64975127 (-8)) (D 1227552 (-9)) z0 z0 z0 z0).
   (* :645 *)
Definition fitPressureWATER :=
  (QuadLinInv, mkargs true (D 2 2) (D 47 1) (D 1 (-64)) (D 1 6) (D 7971248 (-4)) (D 7557045
   (-9)) (D 159156 (-5)) (D (-4273648) (-11)) (D (-3100791) (-9)) (D 6311271 (-14))). (* :646
   *)
Definition fitTemperatureWATER :=
  (QuadraticRoot, mkargs true (D 1 2) (D 1 7) z0 z0 (D 416924282 (-5)) (D 758586482 (-10)) z0
   z0 z0 z0). (* :648 *)
Definition ft_WATER : ftype lit := mkftype false (D 180153 (-4)) (D 647096 (-3))
  (Some fitDensityWATER) (Some fitPressureWATER)
  fitViscosityWATER fitSpecificHeatWATER fitThermalConductivityWATER fitPrandtlNumberWATER
  fitAdiabaticIndexWATER fitTemperatureWATER fitSaturationPressureH2O
  fitSaturationTemperatureH2O fitHeatOfVaporizationH2O. (* :1089 *)
Definition fitDensityHFE7000 :=
  (QuadLin, mkargs true (D 15065 (-2)) (D 47 1) (D 1 (-64)) (D 1 6) (LMul (D 14 (-1)) (D
   7971248 (-4))) (LMul (D 14 (-1)) (D 7557045 (-9))) (LMul (D 14 (-1)) (D 159156 (-5))) (LMul
   (D (-14) (-1)) (D 4273648 (-11))) (LMul (D (-14) (-1)) (D 3100791 (-9))) (LMul (D 14 (-1))
   (D 6311271 (-14)))). (* :654 *)
Definition fitViscosityHFE7000 :=
  (Cubic, mkargs true (D 15065 (-2)) (D 32 1) z0 z0 (D 1775403 (-7)) (D (-8381752) (-10)) (D
   (-2503906) (-12)) (D 112648 (-13)) z0 z0). (* :656 *)
Definition fitSpecificHeatHFE7000 :=
  (Linear, mkargs true (D 15065 (-2)) (D 47 1) z0 z0 (D 38181606 (-5)) (D 30803 (-4)) z0 z0 z0
   z0). (* :657 *)
Definition fitThermalConductivityHFE7000 :=
  (Linear, mkargs true (D 15065 (-2)) (D 47 1) z0 z0 (D 1333374 (-7)) (D (-196) (-6)) z0 z0 z0
   z0). (* :658 *)
Definition fitPrandtlNumberHFE7000 :=
  (Linear, mkargs true (D 15065 (-2)) (D 47 1) z0 z0 (D 75 (-1)) (D 0 0) z0 z0 z0 z0). (* :659
   *)
Definition fitAdiabaticIndexHFE7000 :=
  (Linear, mkargs true (D 15065 (-2)) (D 47 1) z0 z0 (D 14 (-1)) (D 0 0) z0 z0 z0 z0). (* :660
   *)
Definition fitPressureHFE7000 :=
  (QuadLinInv, mkargs true (D 15065 (-2)) (D 47 1) (D 1 (-64)) (D 1 6) (LMul (D 14 (-1)) (D
   7971248 (-4))) (LMul (D 14 (-1)) (D 7557045 (-9))) (LMul (D 14 (-1)) (D 159156 (-5))) (LMul
   (D (-14) (-1)) (D 4273648 (-11))) (LMul (D (-14) (-1)) (D 3100791 (-9))) (LMul (D 14 (-1))
   (D 6311271 (-14)))). (* :661 *)
Definition fitTemperatureHFE7000 :=
  (QuadraticRoot, mkargs true (D 1 2) (D 2 6) z0 z0 (D 38181606 (-5)) (D 30803 (-4)) z0 z0 z0
   z0). (* :663 *)
Definition fitSaturationPressureHFE7000 :=
  (Quadratic, mkargs true (D 1 0) (LDiv (D 43815 (-2)) (D 15065 (-2))) z0 z0 (D 3560395 (-6))
   (D 2010689 (-6)) (D (-2176239) (-6)) z0 z0 z0). (* :664 *)
Definition fitSaturationTemperatureHFE7000 :=
  (Tsat, mkargs true (D 9999151 (-16)) (D 2482244 (-3)) z0 z0 (D 3560395 (-6)) (D 2010689 (-6))
   (D (-2176239) (-6)) z0 z0 z0). (* :665 *)
Definition fitHeatOfVaporizationHFE7000 :=
  (Hvap, mkargs true (LDiv (D 15065 (-2)) (D 43815 (-2))) (D 1 0) z0 z0 (D 1556048 (-4)) (D
   4794244 (-8)) (D 4794244 (-8)) z0 z0 z0). (* :666 *)
Definition ft_HFE7000 : ftype lit := mkftype false (D 2 2) (D 43815 (-2))
  (Some fitDensityHFE7000) (Some fitPressureHFE7000)
  fitViscosityHFE7000 fitSpecificHeatHFE7000 fitThermalConductivityHFE7000
  fitPrandtlNumberHFE7000 fitAdiabaticIndexHFE7000 fitTemperatureHFE7000
  fitSaturationPressureHFE7000 fitSaturationTemperatureHFE7000 fitHeatOfVaporizationHFE7000. (*
  :1101 *)
Definition fitDensityHFE7100 :=
  (QuadLin, mkargs true (D 13815 (-2)) (D 46845 (-2)) (D 1 (-64)) (D 1 6) (D 2157312 (-3)) (D
   7557045 (-9)) (D (-226467) (-5)) (D (-4273648) (-11)) (D (-6394895) (-12)) (D 6311271
   (-14))). (* :672 *)
Definition fitViscosityHFE7100 :=
  (Cubic, mkargs true (D 13815 (-2)) (D 33415 (-2)) z0 z0 (D 1074738 (-7)) (D (-10435097)
   (-10)) (D 3393889 (-12)) (D (-3679803) (-15)) z0 z0). (* :674 *)
Definition fitSpecificHeatHFE7100 :=
  (Linear, mkargs true (D 13815 (-2)) (D 46845 (-2)) z0 z0 (D 5867 (-1)) (D 2 0) z0 z0 z0 z0).
   (* :675 *)
Definition fitThermalConductivityHFE7100 :=
  (Linear, mkargs true (D 13815 (-2)) (D 46845 (-2)) z0 z0 (D 1271094 (-7)) (D (-19548) (-8))
   z0 z0 z0 z0). (* :676 *)
Definition fitPrandtlNumberHFE7100 :=
  (Cubic, mkargs true (D 13815 (-2)) (D 33415 (-2)) z0 z0 (D 8453566 (-4)) (D (-7627354) (-6))
   (D 2298012 (-8)) (D (-2285688) (-11)) z0 z0). (* :677 *)
Definition fitAdiabaticIndexHFE7100 :=
  (Linear, mkargs true (D 13815 (-2)) (D 46845 (-2)) z0 z0 (D 14 (-1)) (D 0 0) z0 z0 z0 z0). (*
   :678 *)
Definition fitPressureHFE7100 :=
  (QuadLinInv, mkargs true (D 13815 (-2)) (D 46845 (-2)) (D 1 (-64)) (D 1 6) (D 2157312 (-3))
   (D 7557045 (-9)) (D (-226467) (-5)) (D (-4273648) (-11)) (D (-6394895) (-12)) (D 6311271
   (-14))). (* :679 *)
Definition fitTemperatureHFE7100 :=
  (QuadraticRoot, mkargs true (D 1 2) (D 2 6) z0 z0 (D 5867 (-1)) (D 2 0) z0 z0 z0 z0). (* :681
   *)
Definition fitSaturationPressureHFE7100 :=
  (Quadratic, mkargs true (D 1 0) (LDiv (D 46845 (-2)) (D 13815 (-2))) z0 z0 (D 6741905 (-6))
   (D (-338726) (-5)) (D 3905253 (-9)) z0 z0 z0). (* :682 *)
Definition fitSaturationTemperatureHFE7100 :=
  (Tsat, mkargs true (D 199994 (-10)) (D 2283231 (-3)) z0 z0 (D 6741905 (-6)) (D (-338726)
   (-5)) (D 3905253 (-9)) z0 z0 z0). (* :683 *)
Definition fitHeatOfVaporizationHFE7100 :=
  (Hvap, mkargs true (LDiv (D 13815 (-2)) (D 46845 (-2))) (D 1 0) z0 z0 (D 13055269 (-5)) (D
   7991991 (-8)) (D 7991991 (-8)) z0 z0 z0). (* :684 *)
Definition ft_HFE7100 : ftype lit := mkftype false (D 25 1) (D 46845 (-2))
  (Some fitDensityHFE7100) (Some fitPressureHFE7100)
  fitViscosityHFE7100 fitSpecificHeatHFE7100 fitThermalConductivityHFE7100
  fitPrandtlNumberHFE7100 fitAdiabaticIndexHFE7100 fitTemperatureHFE7100
  fitSaturationPressureHFE7100 fitSaturationTemperatureHFE7100 fitHeatOfVaporizationHFE7100. (*
  :1113 *)
Definition fitDensityPG30 :=
  (QuadLin, mkargs true (D 26045 (-2)) (D 6405122 (-4)) (D 1 (-64)) (D 1 6) (D 1026482 (-3)) (D
   7557045 (-9)) (D 3783358 (-7)) (D (-4273648) (-11)) (D (-1392346) (-9)) (D 6311271 (-14))).
   (* :690 *)
Definition fitViscosityPG30 :=
  (Power, mkargs true (D 26045 (-2)) (D 6405122 (-4)) z0 z0 (D 4729396 (-4)) (D 9608948 (-7))
   z0 z0 z0 z0). (* :692 *)
Definition fitSpecificHeatPG30 :=
  (Linear, mkargs true (D 26045 (-2)) (D 6405122 (-4)) z0 z0 (D 3520761 (-3)) (D 1184836 (-6))
   z0 z0 z0 z0). (* :693 *)
Definition fitThermalConductivityPG30 :=
  (Quadratic, mkargs true (D 26045 (-2)) (D 6405122 (-4)) z0 z0 (D 1294089 (-7)) (D 1561264
   (-9)) (D (-1392068) (-12)) z0 z0 z0). (* :694 *)
Definition fitPrandtlNumberPG30 :=
  (Power, mkargs true (D 26045 (-2)) (D 6405122 (-4)) z0 z0 (D 5439379 0) (D 9598727 (-7)) z0
   z0 z0 z0). (* :695 *)
Definition fitAdiabaticIndexPG30 :=
  (Linear, mkargs true (D 26045 (-2)) (D 6405122 (-4)) z0 z0 (D 14 (-1)) (D 0 0) z0 z0 z0 z0).
   (* :696 *)
Definition fitPressurePG30 :=
  (QuadLinInv, mkargs true (D 26045 (-2)) (D 6405122 (-4)) (D 1 (-64)) (D 1 6) (D 1026482 (-3))
   (D 7557045 (-9)) (D 3783358 (-7)) (D (-4273648) (-11)) (D (-1392346) (-9)) (D 6311271
   (-14))). (* :697 *)
Definition fitTemperaturePG30 :=
  (QuadraticRoot, mkargs true (D 1 2) (D 1 7) z0 z0 (D 3520761 (-3)) (D 1184836 (-6)) z0 z0 z0
   z0). (* :699 *)
Definition fitSaturationPressurePG30 :=
  (Quadratic, mkargs true (D 1 0) (LDiv (D 6405122 (-4)) (D 26045 (-2))) z0 z0 (D 6981063 (-6))
   (D (-2499521) (-6)) (D (-2438117) (-7)) z0 z0 z0). (* :700 *)
Definition fitSaturationTemperaturePG30 :=
  (Tsat, mkargs true (D 2288534 (-7)) (D 1728742 (-2)) z0 z0 (D 6981063 (-6)) (D (-2499521)
   (-6)) (D (-2438117) (-7)) z0 z0 z0). (* :701 *)
Definition fitHeatOfVaporizationPG30 :=
  (Hvap, mkargs true (LDiv (D 26045 (-2)) (D 6405122 (-4))) (D 1 0) z0 z0 (D 9034089 (-4)) (D
   7395264 (-8)) (D 7395264 (-8)) z0 z0 z0). (* :702 *)
Definition ft_PG30 : ftype lit := mkftype false (D 3543903 (-5)) (D 6405122 (-4))
  (Some fitDensityPG30) (Some fitPressurePG30)
  fitViscosityPG30 fitSpecificHeatPG30 fitThermalConductivityPG30 fitPrandtlNumberPG30
  fitAdiabaticIndexPG30 fitTemperaturePG30 fitSaturationPressurePG30
  fitSaturationTemperaturePG30 fitHeatOfVaporizationPG30. (* :1125 *)
Definition fitDensityPG40 :=
  (QuadLin, mkargs true (D 25156 (-2)) (D 6383176 (-4)) (D 1 (-64)) (D 1 6) (D 1080332 (-3)) (D
   7557045 (-9)) (D 1588472 (-7)) (D (-4273648) (-11)) (D (-1176238) (-9)) (D 6311271 (-14))).
   (* :708 *)
Definition fitViscosityPG40 :=
  (Power, mkargs true (D 25156 (-2)) (D 6383176 (-4)) z0 z0 (D 278637 (-2)) (D 9563338 (-7)) z0
   z0 z0 z0). (* :710 *)
Definition fitSpecificHeatPG40 :=
  (Linear, mkargs true (D 25156 (-2)) (D 6383176 (-4)) z0 z0 (D 3240034 (-3)) (D 171608 (-5))
   z0 z0 z0 z0). (* :711 *)
Definition fitThermalConductivityPG40 :=
  (Quadratic, mkargs true (D 25156 (-2)) (D 6383176 (-4)) z0 z0 (D 2725643 (-7)) (D 6714341
   (-10)) (D (-5159441) (-13)) z0 z0 z0). (* :712 *)
Definition fitPrandtlNumberPG40 :=
  (Power, mkargs true (D 25156 (-2)) (D 6383176 (-4)) z0 z0 (D 2647771 1) (D 9561267 (-7)) z0
   z0 z0 z0). (* :713 *)
Definition fitAdiabaticIndexPG40 :=
  (Linear, mkargs true (D 25156 (-2)) (D 6383176 (-4)) z0 z0 (D 14 (-1)) (D 0 0) z0 z0 z0 z0).
   (* :714 *)
Definition fitPressurePG40 :=
  (QuadLinInv, mkargs true (D 25156 (-2)) (D 6383176 (-4)) (D 1 (-64)) (D 1 6) (D 1080332 (-3))
   (D 7557045 (-9)) (D 1588472 (-7)) (D (-4273648) (-11)) (D (-1176238) (-9)) (D 6311271
   (-14))). (* :715 *)
Definition fitTemperaturePG40 :=
  (QuadraticRoot, mkargs true (D 1 2) (D 1 7) z0 z0 (D 3240034 (-3)) (D 171608 (-5)) z0 z0 z0
   z0). (* :717 *)
Definition fitSaturationPressurePG40 :=
  (Quadratic, mkargs true (D 1 0) (LDiv (D 6383176 (-4)) (D 25156 (-2))) z0 z0 (D 6943746 (-6))
   (D (-2505542) (-6)) (D (-240262) (-6)) z0 z0 z0). (* :718 *)
Definition fitSaturationTemperaturePG40 :=
  (Tsat, mkargs true (D 109513 (-6)) (D 1577863 (-2)) z0 z0 (D 6943746 (-6)) (D (-2505542)
   (-6)) (D (-240262) (-6)) z0 z0 z0). (* :719 *)
Definition fitHeatOfVaporizationPG40 :=
  (Hvap, mkargs true (LDiv (D 25156 (-2)) (D 6383176 (-4))) (D 1 0) z0 z0 (D 9034089 (-4)) (D
   7395264 (-8)) (D 7395264 (-8)) z0 z0 z0). (* :720 *)
Definition ft_PG40 : ftype lit := mkftype false (D 4124694 (-5)) (D 6383176 (-4))
  (Some fitDensityPG40) (Some fitPressurePG40)
  fitViscosityPG40 fitSpecificHeatPG40 fitThermalConductivityPG40 fitPrandtlNumberPG40
  fitAdiabaticIndexPG40 fitTemperaturePG40 fitSaturationPressurePG40
  fitSaturationTemperaturePG40 fitHeatOfVaporizationPG40. (* :1137 *)
Definition fitDensityPG50 :=
  (QuadLin, mkargs true (D 23965 (-2)) (D 636123 (-3)) (D 1 (-64)) (D 1 6) (D 1134182 (-3)) (D
   7557045 (-9)) (D (-6064128) (-8)) (D (-4273648) (-11)) (D (-9601303) (-10)) (D 6311271
   (-14))). (* :726 *)
Definition fitViscosityPG50 :=
  (Power, mkargs true (D 23965 (-2)) (D 636123 (-3)) z0 z0 (D 1641618 (-2)) (D 9517944 (-7)) z0
   z0 z0 z0). (* :728 *)
Definition fitSpecificHeatPG50 :=
  (Linear, mkargs true (D 23965 (-2)) (D 636123 (-3)) z0 z0 (D 2959307 (-3)) (D 2247201 (-6))
   z0 z0 z0 z0). (* :729 *)
Definition fitThermalConductivityPG50 :=
  (Quadratic, mkargs true (D 23965 (-2)) (D 636123 (-3)) z0 z0 (D 4157197 (-7)) (D (-2183961)
   (-10)) (D 3601802 (-13)) z0 z0 z0). (* :730 *)
Definition fitPrandtlNumberPG50 :=
  (Power, mkargs true (D 23965 (-2)) (D 636123 (-3)) z0 z0 (D 1288877 2) (D 9523953 (-7)) z0 z0
   z0 z0). (* :731 *)
Definition fitAdiabaticIndexPG50 :=
  (Linear, mkargs true (D 23965 (-2)) (D 636123 (-3)) z0 z0 (D 14 (-1)) (D 0 0) z0 z0 z0 z0).
   (* :732 *)
Definition fitPressurePG50 :=
  (QuadLinInv, mkargs true (D 23965 (-2)) (D 636123 (-3)) (D 1 (-64)) (D 1 6) (D 1134182 (-3))
   (D 7557045 (-9)) (D (-6064128) (-8)) (D (-4273648) (-11)) (D (-9601303) (-10)) (D 6311271
   (-14))). (* :733 *)
Definition fitTemperaturePG50 :=
  (QuadraticRoot, mkargs true (D 1 2) (D 1 7) z0 z0 (D 2959307 (-3)) (D 2247201 (-6)) z0 z0 z0
   z0). (* :735 *)
Definition fitSaturationPressurePG50 :=
  (Quadratic, mkargs true (D 1 0) (LDiv (D 636123 (-3)) (D 23965 (-2))) z0 z0 (D 6734702 (-6))
   (D (-2261483) (-6)) (D (-3222344) (-7)) z0 z0 z0). (* :736 *)
Definition fitSaturationTemperaturePG50 :=
  (Tsat, mkargs true (D 2893852 (-8)) (D 1415745 (-2)) z0 z0 (D 6734702 (-6)) (D (-2261483)
   (-6)) (D (-3222344) (-7)) z0 z0 z0). (* :737 *)
Definition fitHeatOfVaporizationPG50 :=
  (Hvap, mkargs true (LDiv (D 23965 (-2)) (D 636123 (-3))) (D 1 0) z0 z0 (D 9034089 (-4)) (D
   7395264 (-8)) (D 7395264 (-8)) z0 z0 z0). (* :738 *)
Definition ft_PG50 : ftype lit := mkftype false (D 4705485 (-5)) (D 636123 (-3))
  (Some fitDensityPG50) (Some fitPressurePG50)
  fitViscosityPG50 fitSpecificHeatPG50 fitThermalConductivityPG50 fitPrandtlNumberPG50
  fitAdiabaticIndexPG50 fitTemperaturePG50 fitSaturationPressurePG50
  fitSaturationTemperaturePG50 fitHeatOfVaporizationPG50. (* :1149 *)
Definition fitDensityAMMONIA :=
  (QuadLin, mkargs true (D 2 2) (D 32 1) (D 1 (-64)) (D 1 6) (D 857556 (-3)) (D (-3322898)
   (-9)) (D (-2196556) (-7)) (D 2682584 (-11)) (D (-2137907) (-9)) (D (-4373326) (-14))). (*
   :744 *)
Definition fitViscosityAMMONIA :=
  (Cubic, mkargs true (D 2 2) (D 32 1) z0 z0 (D 8257568 (-9)) (D (-8069591) (-11)) (D 271172
   (-12)) (D (-3080228) (-16)) z0 z0). (* :746 *)
Definition fitSpecificHeatAMMONIA :=
  (Linear, mkargs true (D 2 2) (D 32 1) z0 z0 (D 3232675 (-3)) (D 5032308 (-6)) z0 z0 z0 z0).
   (* :747 *)
Definition fitThermalConductivityAMMONIA :=
  (Linear, mkargs true (D 2 2) (D 32 1) z0 z0 (D 1409424 (-6)) (D (-3073545) (-9)) z0 z0 z0
   z0). (* :748 *)
Definition fitPrandtlNumberAMMONIA :=
  (Cubic, mkargs true (D 2 2) (D 32 1) z0 z0 (D 3284527 (-5)) (D (-3140536) (-7)) (D 1053092
   (-9)) (D (-1188966) (-12)) z0 z0). (* :749 *)
Definition fitAdiabaticIndexAMMONIA :=
  (Linear, mkargs true (D 2 2) (D 32 1) z0 z0 (D 9180049 (-7)) (D 2654521 (-9)) z0 z0 z0 z0).
   (* :750 *)
Definition fitPressureAMMONIA :=
  (QuadLinInv, mkargs true (D 2 2) (D 32 1) (D 1 (-64)) (D 1 6) (D 857556 (-3)) (D (-3322898)
   (-9)) (D (-2196556) (-7)) (D 2682584 (-11)) (D (-2137907) (-9)) (D (-4373326) (-14))). (*
   :751 *)
Definition fitTemperatureAMMONIA :=
  (QuadraticRoot, mkargs true (D 1 2) (D 1 7) z0 z0 (D 3232675 (-3)) (D 5032308 (-6)) z0 z0 z0
   z0). (* :753 *)
Definition ft_AMMONIA : ftype lit := mkftype false (D 170305 (-4)) (D 4054 (-1))
  (Some fitDensityAMMONIA) (Some fitPressureAMMONIA)
  fitViscosityAMMONIA fitSpecificHeatAMMONIA fitThermalConductivityAMMONIA
  fitPrandtlNumberAMMONIA fitAdiabaticIndexAMMONIA fitTemperatureAMMONIA
  fitSaturationPressureNH3 fitSaturationTemperatureNH3 fitHeatOfVaporizationNH3. (* :1161 *)
Definition fitDensityOXYGEN :=
  (QuadLin, mkargs true (D 545 (-1)) (D 16 1) (D 1 (-64)) (D 1 6) (D 1484157 (-3)) (D
   (-8587042) (-9)) (D (-2450391) (-6)) (D 1987369 (-10)) (D (-1522467) (-8)) (D (-7831438)
   (-13))). (* :759 *)
Definition fitViscosityOXYGEN :=
  (Cubic, mkargs true (D 545 (-1)) (D 16 1) z0 z0 (D 4980476 (-9)) (D (-123148) (-9)) (D
   1028597 (-12)) (D (-2833549) (-15)) z0 z0). (* :761 *)
Definition fitSpecificHeatOXYGEN :=
  (Linear, mkargs true (D 545 (-1)) (D 16 1) z0 z0 (D 1236465 (-3)) (D 5952953 (-6)) z0 z0 z0
   z0). (* :762 *)
Definition fitThermalConductivityOXYGEN :=
  (Linear, mkargs true (D 545 (-1)) (D 16 1) z0 z0 (D 2702649 (-7)) (D (-1296934) (-9)) z0 z0
   z0 z0). (* :763 *)
Definition fitPrandtlNumberOXYGEN :=
  (Cubic, mkargs true (D 545 (-1)) (D 16 1) z0 z0 (D 3832281 (-5)) (D (-9263346) (-7)) (D
   7654178 (-9)) (D (-2057837) (-11)) z0 z0). (* :764 *)
Definition fitAdiabaticIndexOXYGEN :=
  (Linear, mkargs true (D 545 (-1)) (D 16 1) z0 z0 (D 6535915 (-7)) (D 1351563 (-8)) z0 z0 z0
   z0). (* :765 *)
Definition fitPressureOXYGEN :=
  (QuadLinInv, mkargs true (D 545 (-1)) (D 16 1) (D 1 (-64)) (D 1 6) (D 1484157 (-3)) (D
   (-8587042) (-9)) (D (-2450391) (-6)) (D 1987369 (-10)) (D (-1522467) (-8)) (D (-7831438)
   (-13))). (* :766 *)
Definition fitTemperatureOXYGEN :=
  (QuadraticRoot, mkargs true (D 1 2) (D 1 6) z0 z0 (D 1236465 (-3)) (D 5952953 (-6)) z0 z0 z0
   z0). (* :768 *)
Definition ft_OXYGEN : ftype lit := mkftype false (D 319988 (-4)) (D 154581 (-3))
  (Some fitDensityOXYGEN) (Some fitPressureOXYGEN)
  fitViscosityOXYGEN fitSpecificHeatOXYGEN fitThermalConductivityOXYGEN fitPrandtlNumberOXYGEN
  fitAdiabaticIndexOXYGEN fitTemperatureOXYGEN fitSaturationPressureO2
  fitSaturationTemperatureO2 fitHeatOfVaporizationO2. (* :1173 *)
Definition fitDensityHYDROGEN :=
  (QuadLin, mkargs true (D 13957 (-3)) (D 33145 (-3)) (D 1 (-64)) (D 1 5) (D 8523911 (-5)) (D
   3848172 (-10)) (D (-2505004) (-7)) (D (-1498004) (-12)) (D (-2275759) (-8)) (D 1385381
   (-12))). (* :774 *)
Definition fitViscosityHYDROGEN :=
  (Cubic, mkargs true (D 13957 (-3)) (D 33145 (-3)) z0 z0 (D (-3313185) (-10)) (D 5649623
   (-11)) (D (-2874943) (-12)) (D 4492284 (-14)) z0 z0). (* :776 *)
Definition fitSpecificHeatHYDROGEN :=
  (Linear, mkargs true (D 13957 (-3)) (D 33145 (-3)) z0 z0 (D 1075252 (-3)) (D 3974336 (-4)) z0
   z0 z0 z0). (* :777 *)
Definition fitThermalConductivityHYDROGEN :=
  (Linear, mkargs true (D 13957 (-3)) (D 33145 (-3)) z0 z0 (D 6970838 (-8)) (D 1438866 (-9)) z0
   z0 z0 z0). (* :778 *)
Definition fitPrandtlNumberHYDROGEN :=
  (Cubic, mkargs true (D 13957 (-3)) (D 33145 (-3)) z0 z0 (D (-2957755) (-6)) (D 1071455 (-6))
   (D (-6652422) (-8)) (D 1197382 (-9)) z0 z0). (* :779 *)
Definition fitAdiabaticIndexHYDROGEN :=
  (Linear, mkargs true (D 13957 (-3)) (D 33145 (-3)) z0 z0 (D 2970049 (-7)) (D 6793151 (-8)) z0
   z0 z0 z0). (* :780 *)
Definition fitPressureHYDROGEN :=
  (QuadLinInv, mkargs true (D 13957 (-3)) (D 33145 (-3)) (D 1 (-64)) (D 1 5) (D 8523911 (-5))
   (D 3848172 (-10)) (D (-2505004) (-7)) (D (-1498004) (-12)) (D (-2275759) (-8)) (D 1385381
   (-12))). (* :781 *)
Definition fitTemperatureHYDROGEN :=
  (QuadraticRoot, mkargs true (D 9 4) (D 5 5) z0 z0 (D 1075252 (-3)) (D 3974336 (-4)) z0 z0 z0
   z0). (* :783 *)
Definition ft_HYDROGEN : ftype lit := mkftype false (D 201588 (-5)) (D 33145 (-3))
  (Some fitDensityHYDROGEN) (Some fitPressureHYDROGEN)
  fitViscosityHYDROGEN fitSpecificHeatHYDROGEN fitThermalConductivityHYDROGEN
  fitPrandtlNumberHYDROGEN fitAdiabaticIndexHYDROGEN fitTemperatureHYDROGEN
  fitSaturationPressureH2 fitSaturationTemperatureH2 fitHeatOfVaporizationH2. (* :1185 *)
Definition fitDensityMETHANE :=
  (QuadLin, mkargs true (D 91 0) (D 19 1) (D 1 (-64)) (D 1 6) (D 518077 (-3)) (D (-1218128)
   (-9)) (D (-2121587) (-7)) (D 1718584 (-11)) (D (-5772998) (-9)) (D 2199488 (-14))). (* :789
   *)
Definition fitViscosityMETHANE :=
  (Cubic, mkargs true (D 91 0) (D 19 1) z0 z0 (D 1570362 (-9)) (D (-2758163) (-11)) (D 1700744
   (-13)) (D (-3554044) (-16)) z0 z0). (* :791 *)
Definition fitSpecificHeatMETHANE :=
  (Linear, mkargs true (D 91 0) (D 19 1) z0 z0 (D 2396006 (-3)) (D 1012118 (-5)) z0 z0 z0 z0).
   (* :792 *)
Definition fitThermalConductivityMETHANE :=
  (Linear, mkargs true (D 91 0) (D 19 1) z0 z0 (D 318017 (-6)) (D (-119349) (-8)) z0 z0 z0 z0).
   (* :793 *)
Definition fitPrandtlNumberMETHANE :=
  (Cubic, mkargs true (D 91 0) (D 19 1) z0 z0 (D 1993432 (-5)) (D (-3382524) (-7)) (D 2086565
   (-9)) (D (-4282414) (-12)) z0 z0). (* :794 *)
Definition fitAdiabaticIndexMETHANE :=
  (Linear, mkargs true (D 91 0) (D 19 1) z0 z0 (D 796846 (-6)) (D 81612 (-7)) z0 z0 z0 z0). (*
   :795 *)
Definition fitPressureMETHANE :=
  (QuadLinInv, mkargs true (D 91 0) (D 19 1) (D 1 (-64)) (D 1 6) (D 518077 (-3)) (D (-1218128)
   (-9)) (D (-2121587) (-7)) (D 1718584 (-11)) (D (-5772998) (-9)) (D 2199488 (-14))). (* :796
   *)
Definition fitTemperatureMETHANE :=
  (QuadraticRoot, mkargs true (D 1 2) (D 1 6) z0 z0 (D 2396006 (-3)) (D 1012118 (-5)) z0 z0 z0
   z0). (* :798 *)
Definition ft_METHANE : ftype lit := mkftype false (D 160425 (-4)) (D 190564 (-3))
  (Some fitDensityMETHANE) (Some fitPressureMETHANE)
  fitViscosityMETHANE fitSpecificHeatMETHANE fitThermalConductivityMETHANE
  fitPrandtlNumberMETHANE fitAdiabaticIndexMETHANE fitTemperatureMETHANE
  fitSaturationPressureCH4 fitSaturationTemperatureCH4 fitHeatOfVaporizationCH4. (* :1197 *)
Definition fitDensityNAK78 :=
  (QuadLin, mkargs true (D 26055 (-2)) (D 105815 (-2)) (D 1 (-64)) (D 1 6) (D 943057 (-3)) (D
   7557045 (-9)) (D (-2536697) (-7)) (D (-4273648) (-11)) (D (-6394895) (-12)) (D 6311271
   (-14))). (* :804 *)
Definition fitViscosityNAK78 :=
  (Power, mkargs true (D 27315 (-2)) (D 393 0) z0 z0 (D 1094168 (-8)) (D 9915936 (-7)) z0 z0 z0
   z0). (* :806 *)
Definition fitSpecificHeatNAK78 :=
  (Linear, mkargs true (D 26055 (-2)) (D 105815 (-2)) z0 z0 (D 838991 (-3)) (D 4298676 (-8)) z0
   z0 z0 z0). (* :807 *)
Definition fitThermalConductivityNAK78 :=
  (Quadratic, mkargs true (D 27315 (-2)) (D 105815 (-2)) z0 z0 (D 1410435 (-5)) (D 327186 (-7))
   (D (-22) (-6)) z0 z0 z0). (* :808 *)
Definition fitPrandtlNumberNAK78 :=
  (Quadratic, mkargs true (D 27315 (-2)) (D 373 0) z0 z0 (D 4353545 (-5)) (D (-22239) (-7)) (D
   3 (-6)) z0 z0 z0). (* :809 *)
Definition fitPressureNAK78 :=
  (QuadLinInv, mkargs true (D 26055 (-2)) (D 105815 (-2)) (D 1 (-64)) (D 1 6) (D 943057 (-3))
   (D 7557045 (-9)) (D (-2536697) (-7)) (D (-4273648) (-11)) (D (-6394895) (-12)) (D 6311271
   (-14))). (* :811 *)
Definition fitTemperatureNAK78 :=
  (QuadraticRoot, mkargs true (D 2 5) (D 2 6) z0 z0 (D 838991 (-3)) (D 4298676 (-8)) z0 z0 z0
   z0). (* :813 *)
Definition ft_NAK78 : ftype lit := mkftype false (D 355544 (-4)) (D 647096 (-3))
  (Some fitDensityNAK78) (Some fitPressureNAK78)
  fitViscosityNAK78 fitSpecificHeatNAK78 fitThermalConductivityNAK78 fitPrandtlNumberNAK78
  fitAdiabaticIndexWATER fitTemperatureNAK78 fitSaturationPressureH2O
  fitSaturationTemperatureH2O fitHeatOfVaporizationH2O. (* :1210 *)
Definition fitDensityGALDEN170 :=
  (QuadLin, mkargs true (D 17615 (-2)) (D 44315 (-2)) (D 1 (-64)) (D 1 6) (D 2448909 (-3)) (D
   7557045 (-9)) (D (-2273338) (-6)) (D (-4273648) (-11)) (D (-6394895) (-12)) (D 6311271
   (-14))). (* :818 *)
Definition fitViscosityGALDEN170 :=
  (Power, mkargs true (D 22315 (-2)) (D 44315 (-2)) z0 z0 (D 2399253 (-6)) (D 9795713 (-7)) z0
   z0 z0 z0). (* :820 *)
Definition fitSpecificHeatGALDEN170 :=
  (Linear, mkargs true (D 17615 (-2)) (D 44315 (-2)) z0 z0 (D 95933 (-2)) (D 33983 (-7)) z0 z0
   z0 z0). (* :821 *)
Definition fitThermalConductivityGALDEN170 :=
  (Linear, mkargs true (D 17615 (-2)) (D 44315 (-2)) z0 z0 (D 8834155 (-8)) (D (-7737154)
   (-11)) z0 z0 z0 z0). (* :822 *)
Definition fitPrandtlNumberGALDEN170 :=
  (Power, mkargs true (D 22315 (-2)) (D 44315 (-2)) z0 z0 (D 1043326 (-2)) (D 9835799 (-7)) z0
   z0 z0 z0). (* :823 *)
Definition fitPressureGALDEN170 :=
  (QuadLinInv, mkargs true (D 17615 (-2)) (D 44315 (-2)) (D 1 (-64)) (D 1 6) (D 2448909 (-3))
   (D 7557045 (-9)) (D (-2273338) (-6)) (D (-4273648) (-11)) (D (-6394895) (-12)) (D 6311271
   (-14))). (* :825 *)
Definition fitTemperatureGALDEN170 :=
  (QuadraticRoot, mkargs true (D 1 5) (D 1 6) z0 z0 (D 95933 (-2)) (D 33983 (-7)) z0 z0 z0 z0).
   (* :827 *)
Definition fitSaturationPressureGALDEN170 :=
  (Quadratic, mkargs true (D 1 0) (LDiv (D 647096 (-3)) (D 22315 (-2))) z0 z0 (D 6901611 (-6))
   (D (-2958793) (-6)) (D (-3139779) (-7)) z0 z0 z0). (* :828 *)
Definition fitSaturationTemperatureGALDEN170 :=
  (Tsat, mkargs true (D 4801679 (-11)) (D 4254419 (-3)) z0 z0 (D 6901611 (-6)) (D (-2958793)
   (-6)) (D (-3139779) (-7)) z0 z0 z0). (* :829 *)
Definition fitHeatOfVaporizationGALDEN170 :=
  (Hvap, mkargs true (LDiv (D 17615 (-2)) (D 647096 (-3))) (D 1 0) z0 z0 (D 85343219 (-6)) (D
   132045 (-6)) (D 132045 (-6)) z0 z0 z0). (* :830 *)
Definition ft_GALDEN170 : ftype lit := mkftype false (D 76 1) (D 647096 (-3))
  (Some fitDensityGALDEN170) (Some fitPressureGALDEN170)
  fitViscosityGALDEN170 fitSpecificHeatGALDEN170 fitThermalConductivityGALDEN170
  fitPrandtlNumberGALDEN170 fitAdiabaticIndexWATER fitTemperatureGALDEN170
  fitSaturationPressureGALDEN170 fitSaturationTemperatureGALDEN170
  fitHeatOfVaporizationGALDEN170. (* :1222 *)
Definition ft_WATER_PVT : ftype lit := mkftype false (D 180153 (-4)) (D 647096 (-3))
  None None
  fitViscosityWATER fitSpecificHeatWATER fitThermalConductivityWATER fitPrandtlNumberWATER
  fitAdiabaticIndexWATER fitTemperatureWATER fitSaturationPressureH2O
  fitSaturationTemperatureH2O fitHeatOfVaporizationH2O. (* :1234 *)
Definition fitDensityNTO :=
  (QuadLin, mkargs true (D 26195 (-2)) (D 4276 (-1)) (D 1 (-64)) (D 1 6) (D 3241299 (-3)) (D
   1140648 (-7)) (D 2817185 (-5)) (D (-6391916) (-10)) (D (-4342774) (-8)) (D 9113739 (-13))).
   (* :858 *)
Definition fitViscosityNTO :=
  (Quartic, mkargs true (D 26195 (-2)) (D 4276 (-1)) z0 z0 (D 7533 (-6)) (D (-6167) (-8)) (D
   2055 (-10)) (D (-3234) (-13)) (D 1966 (-16)) z0). (* :860 *)
Definition fitSpecificHeatNTO :=
  (Linear, mkargs true (D 26195 (-2)) (D 4276 (-1)) z0 z0 (D (-22157) (-1)) (D 13372 (-3)) z0
   z0 z0 z0). (* :861 *)
Definition fitThermalConductivityNTO :=
  (Quadratic, mkargs true (D 26195 (-2)) (D 35 1) z0 z0 (D (-13782) (-5)) (D 23288 (-7)) (D
   (-47865) (-10)) z0 z0 z0). (* :862 *)
Definition fitPrandtlNumberNTO :=
  (Quartic, mkargs true (D 26195 (-2)) (D 35 1) z0 z0 (D (-2364171) (-5)) (D 2898713 (-7)) (D
   (-9459955) (-10)) (D 933181 (-12)) (D 244165 (-15)) z0). (* :863 *)
Definition fitAdiabaticIndexNTO :=
  (Linear, mkargs true (D 2 2) (D 47 1) z0 z0 (D 64975127 (-8)) (D 1227552 (-9)) z0 z0 z0 z0).
   (* :864 *)
Definition fitPressureNTO :=
  (QuadLinInv, mkargs true (D 26195 (-2)) (D 4276 (-1)) (D 1 (-64)) (D 1 6) (D 3241299 (-3)) (D
   1140648 (-7)) (D 2817185 (-5)) (D (-6391916) (-10)) (D (-4342774) (-8)) (D 9113739 (-13))).
   (* :865 *)
Definition fitTemperatureNTO :=
  (QuadraticRoot, mkargs true (LMul (D 1214 0) (D 26195 (-2))) (LMul (D 3502 0) (D 4276 (-1)))
   z0 z0 (D (-22157) (-1)) (D 13372 (-3)) z0 z0 z0 z0). (* :867 *)
Definition fitSaturationPressureN2O4 :=
  (Quadratic, mkargs true (D 1 0) (LDiv (D 43135 (-2)) (D 26195 (-2))) z0 z0 (D 8949029 (-6))
   (D (-5406766) (-6)) (D 4546795 (-7)) z0 z0 z0). (* :618 *)
Definition fitSaturationTemperatureN2O4 :=
  (Tsat, mkargs true (D 18996 (-3)) (D 992985 (-2)) z0 z0 (D 8949029 (-6)) (D (-5406766) (-6))
   (D 4546795 (-7)) z0 z0 z0). (* :619 *)
Definition fitHeatOfVaporizationN2O4 :=
  (Linear, mkargs true (D 26195 (-2)) (D 43135 (-2)) z0 z0 (D 125840074661114 (-11)) (D
   (-291735422884232) (-14)) z0 z0 z0 z0). (* :620 *)
Definition ft_NTO : ftype lit := mkftype false (D 92011 (-3)) (D 43135 (-2))
  (Some fitDensityNTO) (Some fitPressureNTO)
  fitViscosityNTO fitSpecificHeatNTO fitThermalConductivityNTO fitPrandtlNumberNTO
  fitAdiabaticIndexNTO fitTemperatureNTO fitSaturationPressureN2O4 fitSaturationTemperatureN2O4
  fitHeatOfVaporizationN2O4. (* :1246 *)
Definition fitDensityMMH :=
  (QuadLin, mkargs true (D 22 1) (D 585 0) (D 1 (-64)) (D 1 6) (D 9935507 (-4)) (D 4356428
   (-9)) (D 7055863 (-8)) (D (-2411805) (-11)) (D (-1605997) (-9)) (D 4182414 (-14))). (* :872
   *)
Definition fitViscosityMMH :=
  (Quintic, mkargs true (D 22 1) (D 36 1) z0 z0 (D 1081484 (-5)) (D (-1796232) (-7)) (D 1189885
   (-9)) (D (-3928065) (-12)) (D 6460698 (-15)) (D (-4234832) (-18))). (* :874 *)
Definition fitSpecificHeatMMH :=
  (Linear, mkargs true (D 22 1) (D 585 0) z0 z0 (D 24807 (-1)) (D 12624 (-4)) z0 z0 z0 z0). (*
   :875 *)
Definition fitThermalConductivityMMH :=
  (Quadratic, mkargs true (D 22 1) (D 585 0) z0 z0 (D 14236 (-5)) (D 92048 (-8)) (D (-19016)
   (-10)) z0 z0 z0). (* :876 *)
Definition fitPrandtlNumberMMH :=
  (Quartic, mkargs true (D 22 1) (D 5 2) z0 z0 (D 173757 (-2)) (D (-1634448) (-5)) (D 5688812
   (-8)) (D (-8669108) (-11)) (D 4878808 (-14)) z0). (* :877 *)
Definition fitAdiabaticIndexMMH :=
  (Linear, mkargs true (D 2 2) (D 47 1) z0 z0 (D 64975127 (-8)) (D 1227552 (-9)) z0 z0 z0 z0).
   (* :878 *)
Definition fitPressureMMH :=
  (QuadLinInv, mkargs true (D 22 1) (D 585 0) (D 1 (-64)) (D 1 6) (D 9935507 (-4)) (D 4356428
   (-9)) (D 7055863 (-8)) (D (-2411805) (-11)) (D (-1605997) (-9)) (D 4182414 (-14))). (* :879
   *)
Definition fitTemperatureMMH :=
  (QuadraticRoot, mkargs true (LMul (D 27584 (-1)) (D 22 1)) (LMul (D 32192 (-1)) (D 585 0)) z0
   z0 (D 24807 (-1)) (D 12624 (-4)) z0 z0 z0 z0). (* :881 *)
Definition fitSaturationPressureCH3N2H3 :=
  (Quadratic, mkargs true (D 1 0) (LDiv (D 585 0) (D 22 1)) z0 z0 (D 6263433 (-6)) (D
   (-1923808) (-6)) (D (-434885) (-6)) z0 z0 z0). (* :632 *)
Definition fitSaturationTemperatureCH3N2H3 :=
  (Tsat, mkargs true (D 11827 (-6)) (D 803046 (-2)) z0 z0 (D 6263433 (-6)) (D (-1923808) (-6))
   (D (-434885) (-6)) z0 z0 z0). (* :633 *)
Definition fitHeatOfVaporizationCH3N2H3 :=
  (Linear, mkargs true (D 22 1) (D 585 0) z0 z0 (D 17880772786368 (-10)) (D (-305654235664393)
   (-14)) z0 z0 z0 z0). (* :634 *)
Definition ft_MMH : ftype lit := mkftype false (D 460717 (-4)) (D 585 0)
  (Some fitDensityMMH) (Some fitPressureMMH)
  fitViscosityMMH fitSpecificHeatMMH fitThermalConductivityMMH fitPrandtlNumberMMH
  fitAdiabaticIndexMMH fitTemperatureMMH fitSaturationPressureCH3N2H3
  fitSaturationTemperatureCH3N2H3 fitHeatOfVaporizationCH3N2H3. (* :1258 *)
Definition fitDensityHYDRAZINE :=
  (QuadLin, mkargs true (D 27468 (-2)) (D 3874 (-1)) (D 1 (-64)) (D 1 6) (D 1230774 (-3)) (D
   591931 (-10)) (D (-626700942) (-9)) (D 206685 (-12)) (D (-452968) (-9)) (D 125893 (-14))).
   (* :886 *)
Definition fitViscosityHYDRAZINE :=
  (Power, mkargs true (D 27468 (-2)) (D 3874 (-1)) z0 z0 (D 32949161 (-9)) (D 988079347 (-9))
   z0 z0 z0 z0). (* :888 *)
Definition fitSpecificHeatHYDRAZINE :=
  (Linear, mkargs true (D 27468 (-2)) (D 3874 (-1)) z0 z0 (D 23433 (-1)) (D 24825 (-4)) z0 z0
   z0 z0). (* :889 *)
Definition fitThermalConductivityHYDRAZINE :=
  (Quadratic, mkargs true (D 27468 (-2)) (D 3874 (-1)) z0 z0 (D 88203316 (-9)) (D 2744071 (-9))
   (D (-468042) (-11)) z0 z0 z0). (* :890 *)
Definition fitPrandtlNumberHYDRAZINE :=
  (Power, mkargs true (D 27468 (-2)) (D 3874 (-1)) z0 z0 (D 1318770027 (-7)) (D 989586693 (-9))
   z0 z0 z0 z0). (* :891 *)
Definition fitAdiabaticIndexHYDRAZINE :=
  (Linear, mkargs true (D 2 2) (D 47 1) z0 z0 (D 64975127 (-8)) (D 1227552 (-9)) z0 z0 z0 z0).
   (* :892 *)
Definition fitPressureHYDRAZINE :=
  (QuadLinInv, mkargs true (D 27468 (-2)) (D 3874 (-1)) (D 1 (-64)) (D 1 6) (D 1230774 (-3)) (D
   591931 (-10)) (D (-626700942) (-9)) (D 206685 (-12)) (D (-452968) (-9)) (D 125893 (-14))).
   (* :893 *)
Definition fitTemperatureHYDRAZINE :=
  (QuadraticRoot, mkargs true (LMul (D 3025 0) (D 27468 (-2))) (LMul (D 3806 0) (D 3874 (-1)))
   z0 z0 (D 23433 (-1)) (D 24825 (-4)) z0 z0 z0 z0). (* :895 *)
Definition fitSaturationPressureN2H4 :=
  (Quadratic, mkargs true (D 1 0) (LDiv (D 653 0) (D 27468 (-2))) z0 z0 (D 6968218448 (-9)) (D
   (-2586591091) (-9)) (D (-211863158) (-9)) z0 z0 z0). (* :625 *)
Definition fitSaturationTemperatureN2H4 :=
  (Tsat, mkargs true (D 418 (-3)) (D 14784 0) z0 z0 (D 6968218448 (-9)) (D (-2586591091) (-9))
   (D (-211863158) (-9)) z0 z0 z0). (* :626 *)
Definition fitHeatOfVaporizationN2H4 :=
  (Linear, mkargs true (D 27468 (-2)) (D 38737 (-2)) z0 z0 (D 18595 (-1)) (D (-1644) (-3)) z0
   z0 z0 z0). (* :627 *)
Definition ft_HYDRAZINE : ftype lit := mkftype false (D 320452 (-4)) (D 653 0)
  (Some fitDensityHYDRAZINE) (Some fitPressureHYDRAZINE)
  fitViscosityHYDRAZINE fitSpecificHeatHYDRAZINE fitThermalConductivityHYDRAZINE
  fitPrandtlNumberHYDRAZINE fitAdiabaticIndexHYDRAZINE fitTemperatureHYDRAZINE
  fitSaturationPressureN2H4 fitSaturationTemperatureN2H4 fitHeatOfVaporizationN2H4. (* :1270 *)

(** In the order of the enumeration FluidType, FluidProperties.hh:81-117. *)
Definition defined : list (ftype lit) :=
  [ft_CO; ft_CO2; ft_H2O; ft_N2; ft_O2; ft_NH3; ft_H2; ft_CH4; ft_HCL; ft_HCN; ft_HE; ft_AR;
   ft_HE_REAL_GAS; ft_XE_REAL_GAS; ft_N2_REAL_GAS; ft_O2_REAL_GAS; ft_CH4_REAL_GAS;
   ft_H2_REAL_GAS; ft_WATER; ft_HFE7000; ft_HFE7100; ft_PG30; ft_PG40; ft_PG50; ft_AMMONIA;
   ft_OXYGEN; ft_HYDROGEN; ft_METHANE; ft_NAK78; ft_GALDEN170; ft_WATER_PVT; ft_NTO; ft_MMH;
   ft_HYDRAZINE].
