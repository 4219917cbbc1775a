(** Trace compounds: chemical compounds that ride along with a fluid without being part of it.
    Source: /repo/aspects/fluid/fluid/GunnsFluidTraceCompounds.cpp.

    The arrays mMass and mMoleFraction and the compounds' molecular weights are one list of cells,
    so every object with the same configuration has cells of the same weights in the same order.
    mFluidMoles, a reference to the moles of the fluid the compounds ride in, is the argument
    [moles].  Compound types and names are numbers, [0] is NO_COMPOUND. *)
From Coq Require Import List Bool ZArith.
From Verif Require Import Num MathUtil.
Import ListNotations.

Section TRACE.
Context {T : Type} {N : Num T}.

Record cell := mkcell { c_w : T; c_m : T; c_x : T }.     (* mMWeight, mMass, mMoleFraction *)
Record kind := mkkind { k_type : nat; k_name : nat; k_w : T }.

(** updateMasses, :636-641. *)
Definition update_masses (moles : T) (cs : list cell) : list cell :=
  map (fun c => mkcell (c_w c) (c_x c *~ moles *~ c_w c) (c_x c)) cs.
(** updateMoleFractions, :647-663. *)
Definition refraction (moles : T) (c : cell) : cell :=
  if n0 <~ moles then mkcell (c_w c) (c_m c) (c_m c /~ moles /~ c_w c) else c.
Definition cut_off (c : cell) : cell :=
  if c_x c <~ neps then mkcell (c_w c) n0 n0 else c.
Definition update_fracs (moles : T) (cs : list cell) : list cell :=
  map cut_off (map (refraction moles) cs).
(** flowIn from another fluid's compounds, :677-686; only the source's fractions are read. *)
Definition flow_in (moles : T) (src : list T) (n : T) (cs : list cell) : list cell :=
  update_fracs moles (map (fun p => let c := snd p in
    mkcell (c_w c) (c_m c +~ n *~ fst p *~ c_w c) (c_x c)) (combine src cs)).
(** flowIn at given rates, :700-706. *)
Definition flow_rates (moles : T) (rates : list T) (dt : T) (cs : list cell) : list cell :=
  update_fracs moles (map (fun p => let c := snd p in
    mkcell (c_w c) (nmax n0 (c_m c +~ fst p *~ dt)) (c_x c)) (combine rates cs)).
(** flowOut, :717-725. *)
Definition flow_out (n : T) (cs : list cell) : list cell :=
  if neps <~ n then map (fun c => mkcell (c_w c) (c_m c -~ n *~ c_x c *~ c_w c) (c_x c)) cs else cs.
(** limitPositive, :730-736. *)
Definition limit_positive (moles : T) (cs : list cell) : list cell :=
  update_fracs moles (map (fun c => mkcell (c_w c) (nmax n0 (c_m c)) (c_x c)) cs).

(** validate, :348-393: the pairs compared, and the sign of the fractions given. *)
Definition clash (a b : kind) : bool :=
  (Nat.eqb (k_type b) (k_type a) && negb (Nat.eqb (k_type a) 0)) || Nat.eqb (k_name b) (k_name a).
Fixpoint clashes (ks : list kind) : bool :=
  match ks with [] => false | k :: r => existsb (clash k) r || clashes r end.
Definition tc_valid (ks : list kind) (xs : option (list T)) : bool :=
  negb (clashes ks) &&
  match xs with Some l => negb (existsb (fun x => x <~ n0) (firstn (length ks) l)) | None => true end.
(** initialize, :300-338; [None]: it threw. *)
Definition tc_init (moles : T) (ks : list kind) (xs : option (list T)) : option (list cell) :=
  if tc_valid ks xs then
    match xs with
    | Some l => Some (limit_positive moles (update_masses moles
                        (map (fun p => mkcell (k_w (fst p)) n0 (snd p)) (combine ks l))))
    | None => Some (map (fun k => mkcell (k_w k) n0 n0) ks)
    end
  else None.
(** find, :438-459: by type, or by name when the type is NO_COMPOUND; [None]: it threw. *)
Fixpoint tc_find (ty name : nat) (ks : list kind) (i : nat) : option nat :=
  match ks with
  | [] => None
  | k :: r => if (if negb (Nat.eqb ty 0) then Nat.eqb (k_type k) ty else Nat.eqb (k_name k) name)
              then Some i else tc_find ty name r (S i)
  end.
End TRACE.
Arguments cell : clear implicits. Arguments kind : clear implicits.
