(** A battery of cells.
    Source: /repo/aspects/electrical/Batt/GunnsElectBattery.{cpp,hh} and
    GunnsElectBatteryCell.{cpp,hh}, on the basic potential link of BasicLinks.v.

    The table of open circuit voltages is a function of the state of charge (it does not depend on
    what was asked before, C44).  Left out: names, messages and memory. *)
From Coq Require Import List Bool ZArith Arith.
From Verif Require Import Num Loops MathUtil BasicLinks.
Import ListNotations.

Section BATTERY.
Context {T : Type} {N : Num T}.
Variable voc : T -> T.    (* mSocVocTable->get *)

Record cell := mkcell {
  l_open : bool; l_short : bool; l_capf : bool; l_capv : T; l_run : bool; l_dur : T;   (* the malfunctions *)
  l_r : T; l_max : T;                                                                  (* mResistance, mMaxCapacity *)
  l_soc : T; l_pow : T; l_rate : T                                                     (* mSoc, mRunawayPower, mRunawayPowerRate *)
}.
Definition sec_per_hr : T := ndec 3600 0.
(** validate, GunnsElectBatteryCell.cpp:173-198. *)
Definition cell_valid (c : cell) : bool :=
  negb (l_r c <~ n0) && negb (l_max c <~ neps) && is_in_range n0 (l_soc c) n1.
(** updateSoc :213-246. *)
Definition runaway (dt capacity : T) (c : cell) : T * T * T :=     (* current, power, rate *)
  if l_run c && (n0 <~ l_soc c) then
    let voltage := nmax neps (voc (l_soc c)) in
    let rate := if n0 ==~ l_pow c
                then ndec 2 0 *~ (l_soc c *~ capacity *~ voltage *~ sec_per_hr) /~ nmax neps (l_dur c *~ l_dur c)
                else l_rate c in
    let pow := l_pow c +~ rate *~ dt in
    (pow /~ voltage, pow, rate)
  else (n0, l_pow c, l_rate c).
Definition soc_update (current dt : T) (c : cell) : T * T * T :=   (* state of charge, power, rate *)
  if l_short c then (n0, l_pow c, l_rate c)
  else if negb (l_open c) then
    let capacity := if l_capf c then l_capv c else l_max c in
    let '(soc, pow, rate) :=
      if neps <~ capacity then
        let '(i, pow, rate) := runaway dt capacity c in
        (l_soc c -~ (current +~ i) *~ dt /~ capacity /~ sec_per_hr, pow, rate)
      else (n0, l_pow c, l_rate c) in
    (limit_range n0 soc n1, pow, rate)
  else (l_soc c, l_pow c, l_rate c).
Definition with_soc (c : cell) (soc pow rate : T) : cell :=
  mkcell (l_open c) (l_short c) (l_capf c) (l_capv c) (l_run c) (l_dur c) (l_r c) (l_max c) soc pow rate.
Definition cell_update (current dt : T) (c : cell) : cell :=
  let '(soc, pow, rate) := soc_update current dt c in
  if (n0 ==~ soc) || negb (l_run c) then with_soc c soc n0 n0 else with_soc c soc pow rate.
(** :254-313. *)
Definition eff_soc (c : cell) : T := if l_open c || l_short c then n0 else l_soc c.
Definition eff_capacity (c : cell) : T :=
  if l_open c || l_short c then n0 else if l_capf c then l_capv c else l_max c.
Definition eff_resistance (c : cell) : T :=
  if l_short c then neps else if l_open c || l_run c then n1 /~ neps else l_r c.
Definition eff_voltage (c : cell) : T :=
  if l_open c || l_short c || l_run c then n0 else voc (l_soc c).
(** setMalfThermalRunaway, GunnsElectBatteryCell.hh:218-222. *)
Definition set_run (flag : bool) (dur : T) (c : cell) : cell :=
  mkcell (l_open c) (l_short c) (l_capf c) (l_capv c) flag dur (l_r c) (l_max c) (l_soc c) (l_pow c) (l_rate c).

(** ** GunnsElectBattery *)
Record batt := mkbatt {
  t_cells : list cell; t_run : bool; t_dur : T; t_int : T; t_par : bool; t_ir : T;
  t_idx : nat; t_timer : T           (* mThermalRunawayCell, mThermalRunawayTimer *)
}.
Definition with_cells (b : batt) (l : list cell) : batt :=
  mkbatt l (t_run b) (t_dur b) (t_int b) (t_par b) (t_ir b) (t_idx b) (t_timer b).
Fixpoint upd_cell (l : list cell) (i : nat) (f : cell -> cell) : list cell :=
  match l, i with
  | [], _ => []
  | c :: l, O => f c :: l
  | c :: l, S i => c :: upd_cell l i f
  end.
(** validate, GunnsElectBattery.cpp:212-238, with the cells' own; initialize :136-171.  The number of
    cells is a positive int converted to unsigned. *)
Definition batt_init (num : nat) (par : bool) (r ir maxcap soc : T) (run : bool) (dur int : T) : option batt :=
  let c := mkcell false false false n0 false n0 r (maxcap /~ ndec (Z.of_nat num) 0) soc n0 n0 in
  if negb (ir <~ n0) && negb (Nat.ltb num 1) && is_in_range n0 soc n1 && cell_valid c
  then Some (mkbatt (repeat c num) run dur int par ir 0 n0) else None.
(** The first part of updateState :246-272. *)
Definition cascade (dt : T) (b : batt) : batt :=
  if t_run b then
    let i := if Nat.leb (length (t_cells b)) (t_idx b) then 0%nat else t_idx b in
    let l := upd_cell (t_cells b) i (set_run true (t_dur b)) in
    let timer := t_timer b +~ dt in
    if t_int b <=~ timer
    then mkbatt l (t_run b) (t_dur b) (t_int b) (t_par b) (t_ir b) (S i) n0
    else mkbatt l (t_run b) (t_dur b) (t_int b) (t_par b) (t_ir b) i timer
  else
    let l := if n0 <~ t_timer b then map (set_run false n0) (t_cells b) else t_cells b in
    mkbatt l (t_run b) (t_dur b) (t_int b) (t_par b) (t_ir b) 0 n0.
(** :298-354. *)
Definition parallel_resistance (l : list cell) : T :=
  n1 /~ nmax (fold_left (fun g c => g +~ n1 /~ nmax (eff_resistance c) neps) l n0) neps.
Definition series_resistance (l : list cell) : T :=
  nmax (fold_left (fun r c => r +~ eff_resistance c) l n0) neps.
Definition parallel_voc (l : list cell) : T :=
  fold_left (fun v c => if v <~ eff_voltage c then eff_voltage c else v) l n0.
Definition series_voc (l : list cell) : T := fold_left (fun v c => v +~ eff_voltage c) l n0.
(** The second part :275-290. *)
Definition batt_eff (b : batt) : T :=
  n1 /~ (t_ir b +~ (if t_par b then parallel_resistance (t_cells b) else series_resistance (t_cells b))).
Definition batt_source (b : batt) : T :=
  if t_par b then parallel_voc (t_cells b) else series_voc (t_cells b).
(** step: GunnsBasicConductor.cpp:196-215, GunnsBasicPotential.cpp:183-187. *)
Definition batt_step (dt : T) (b : batt) (k : base) : batt * base * T :=
  let b := cascade dt b in
  let eff := batt_eff b in
  let g := if b_malf k then eff *~ (n1 -~ b_malfv k) else eff in
  let g := limit_range n0 g conductance_limit in
  (b, build_potential (batt_source b) (set_adm k g), g).
(** updateCells :375-394. *)
Definition contributing (c : cell) : bool := neps <~ eff_soc c.
Definition update_cells (flux dt : T) (l : list cell) : list cell :=
  let count := length (List.filter contributing l) in
  if Nat.ltb 0 count then map (cell_update (flux /~ ndec (Z.of_nat count) 0) dt) l else l.
(** updateOutputs :399-417: state of charge, capacity, heat. *)
Definition outputs (flux g : T) (l : list cell) : T * T * T :=
  let soc := fold_left (fun s c => s +~ eff_soc c) l n0 in
  let cap := fold_left (fun s c => s +~ eff_capacity c) l n0 in
  let heat := fold_left (fun s c => s +~ l_pow c) l n0 in
  (if Nat.ltb 0 (length l) then soc /~ ndec (Z.of_nat (length l)) 0 else soc, cap,
   heat +~ flux *~ flux /~ nmax g neps).
(** computeFlows: GunnsBasicConductor.cpp:237-244, GunnsBasicPotential.hh:187-190, then
    updateFlux :362-366; [g] is mSystemConductance. *)
Definition batt_flows (dt g : T) (b : batt) (k : base) : batt * base * (T * T * T) :=
  let k := with_drop k (delta k) in
  let k := compute_power (with_flux k (flux_src k)) in
  let b := with_cells b (update_cells (b_flux k) dt (t_cells b)) in
  (b, k, outputs (b_flux k) g (t_cells b)).
End BATTERY.
Arguments cell : clear implicits.
Arguments batt : clear implicits.
