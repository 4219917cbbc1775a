(** Links that make a node follow a volume of another network, and leaks of sealed jumpers and sockets.
    Source: /repo/core/GunnsFluidShadow.cpp, GunnsFluidJumper.cpp:268-306, GunnsFluidSocket.cpp:294-317.

    The node of a shadow is the pressure, temperature and mass fractions of its contents.  Exceptions of the
    fluid class for bad input data, which the link catches, are left out. *)
From Coq Require Import List Bool ZArith.
From Verif Require Import Num MathUtil FluidFlow.
Import ListNotations.

Section SHADOW.
Context {T : Type} {N : Num T}.
(** ** GunnsFluidShadow *)
Inductive mtype := MassFrac | MoleFrac | PartPress.
(** mControlTarget, types of the mixtures, mTransformMap, molecular weights of the external and of the
    network's types. *)
Record shc := mkshc { h_target : Z; h_in : mtype; h_out : mtype; h_map : list (option nat); h_we : list T; h_wi : list T }.
(** mFirstPassFlag, mShadowIsActive, the inputs, mSourcePressure. *)
Record shs := mkshs { h_first : bool; h_active : bool; h_p : T; h_t : T; h_x : list T; h_src : T }.
Record vol := mkvol { v_p : T; v_t : T; v_x : list T }.
(** setInputs, :399-416. *)
Definition sh_set (p t : T) (x : list T) (s : shs) : shs := mkshs (h_first s) (h_active s) p t x (h_src s).
(** The conversion of the inputs, :267-282. *)
Definition sh_convert (c : shc) (x : list T) : list T :=
  match h_in c with
  | MassFrac => x
  | MoleFrac => mole_to_mass x x (h_we c)
  | PartPress => let y := press_to_mole x x in mole_to_mass y y (h_we c)
  end.
(** processInputs, :256-303; [ctl] is mShadowActiveControl. *)
Definition sh_process (c : shc) (ctl : Z) (s : shs) (n : vol) : shs * vol :=
  if h_first s then
    let act := Z.eqb ctl (h_target c) in
    let x := sh_convert c (h_x s) in
    if act then (mkshs true true (h_p s) (h_t s) x (h_p s), mkvol (h_p s) (h_t s) (transform_fracs (v_x n) (h_map c) x))
    else (mkshs true false (h_p s) (h_t s) x (h_src s), n)
  else (mkshs true false (h_p s) (h_t s) (h_x s) (h_src s), n).
(** processOutputs, :309-336; [pot] is the node's potential. *)
Definition sh_outputs (c : shc) (pot : T) (n : vol) : T * T * list T :=
  let y := v_x n in
  (pot, v_t n, match h_out c with
               | MassFrac => y
               | MoleFrac => mass_to_mole y y (h_wi c)
               | PartPress => mole_to_press (mass_to_mole y y (h_wi c)) pot
               end).
(** updateState, :343-356. *)
Definition sh_cond (mx : T) (s : shs) : T := if h_active s then mx else n0.
(** checkSpecificPortRules, :369-386. *)
Definition sh_port (ground : nat) (port node : nat) : bool :=
  negb ((Nat.eqb port 1 && Nat.eqb node ground) || (Nat.eqb port 0 && negb (Nat.eqb node ground))).
(** Passes: the control and, if new, the inputs. *)
Definition sh_pass (c : shc) (sn : shs * vol) (u : Z * option (T * T * list T)) : shs * vol :=
  let s := match snd u with Some (p, t, x) => sh_set p t x (fst sn) | None => fst sn end in sh_process c (fst u) s (snd sn).
Definition sh_run (c : shc) (us : list (Z * option (T * T * list T))) (sn : shs * vol) : shs * vol := fold_left (sh_pass c) us sn.

(** ** Leaks of jumpers and sockets *)
Variables (sq : T -> T) (pw : T -> T -> T).
(** mMalfLeakRateFlag, mMalfLeakRateValue, mPreviousLeakRate, mLeakConductivity. *)
Record jleak := mkjl { l_flag : bool; l_rate : T; l_prev : T; l_cond : T }.
(** The sealed part of both: the new state and mEffectiveConductivity. *)
Definition seal_leak (mx minp : T) (a b : @fl T) (l : jleak) : jleak * T :=
  let l := if negb (l_prev l ==~ l_rate l) then mkjl (l_flag l) (l_rate l) (l_rate l) (predict_cond sq pw (l_rate l) minp a b half) else l in
  (l, if l_flag l then nmin (l_cond l) mx else n0).
(** GunnsFluidJumper::updateState; [same]: both ports on one node. *)
Definition jumper_update (mx minp : T) (same sealed : bool) (a b : @fl T) (l : jleak) : jleak * T :=
  if same then (l, n0) else if sealed then seal_leak mx minp a b l else (l, mx).
(** GunnsFluidSocket::updateState. *)
Definition socket_update (mx minp : T) (connected sealing : bool) (a b : @fl T) (l : jleak) : jleak * T :=
  if connected || sealing then seal_leak mx minp a b l else (l, mx).
(** A step: the malfunction, and what the jumper is in. *)
Record jstep := mkjs { t_flag : bool; t_rate : T; t_same : bool; t_sealed : bool; t_a : @fl T; t_b : @fl T }.
Definition jumper_step (mx minp : T) (s : jleak * T) (u : jstep) : jleak * T :=
  jumper_update mx minp (t_same u) (t_sealed u) (t_a u) (t_b u) (mkjl (t_flag u) (t_rate u) (l_prev (fst s)) (l_cond (fst s))).
Definition jumper_run (mx minp : T) (us : list jstep) (s : jleak * T) : jleak * T := fold_left (jumper_step mx minp) us s.
End SHADOW.
Arguments shc T : clear implicits.
Arguments shs T : clear implicits.
Arguments vol T : clear implicits.
Arguments jleak T : clear implicits.
Arguments jstep T : clear implicits.
