(** The separator of several fluids to several ports.
    Source: /repo/aspects/fluid/source/GunnsFluidMultiSeparator.cpp.

    Fluids are in moles: [x] are the mole fractions of the outflow of the upstream node, and a mass given
    with the pure fluid of a type counts as mass over its molecular weight.  Neither port 0 nor port 1 is
    the ground.  Temperatures, trace compounds and the normalisation of fractions in setMoleAndMoleFractions
    (PolyFluid.cpp:752-770) are left out; that the fractions need none is proved. *)
From Coq Require Import List Bool ZArith Arith.
From Verif Require Import Num MathUtil.
Import ListNotations.

Section MSEP.
Context {T : Type} {N : Num T}.
Definition put (i : nat) (v : T) (l : list T) : list T :=
  firstn i l ++ match skipn i l with [] => [] | _ :: r => v :: r end.
(** Number of ports, the constituents separated with their ports, and the number of trace compounds. *)
Record msc := mkmsc { m_np : nat; m_idx : list nat; m_port : list nat; m_tc : nat }.
Fixpoint distinct (l : list nat) : bool := match l with [] => true | i :: r => negb (existsb (Nat.eqb i) r) && distinct r end.
(** validate and validateSep, :274-360, for a network of [nc] constituents; phases are left out. *)
Definition ms_valid (nc : nat) (c : msc) (frac : list T) : bool :=
  negb (m_np c <? 3) && negb (length (m_idx c) + m_tc c <? 1) && (length (m_idx c) =? length (m_port c)) && (length (m_idx c) =? length frac)
  && distinct (m_idx c) && forallb (fun p => (2 <=? p) && (p <=? m_np c - 1)) (m_port c) && forallb (fun i => i <? nc) (m_idx c)
  && forallb (fun f => is_in_range n0 f n1) frac.
(** step, :571-581: the source vector and what leaves the ports, that is what was separated in the pass
    before; [fwd] is that the potential of port 0 is not below that of port 1. *)
Definition ms_source (c : msc) (fwd : bool) (thru src : list T) : list T :=
  fold_left (fun s q => put (fst q) (snd q) (let d := if fwd then 1 else 0 in put d (nth d s n0 -~ snd q) s))
    (combine (m_port c) thru) (put 1 n0 (put 0 n0 src)).
(** computeFlux, :661-671. *)
Definition ms_flux (p0 p1 a : T) : T :=
  let drop := p0 -~ p1 in if nabs drop <~ nmax p0 p1 *~ (ndec 100 0 *~ neps) then n0 else drop *~ a.
(** The upstream port, :613 (GunnsFluidLink.cpp:370-382). *)
Definition ms_up (flux : T) : nat := if flux <~ n0 then 1 else 0.
(** What is separated in this pass, :639-641. *)
Definition ms_thru (c : msc) (frac x : list T) (flux : T) : list T :=
  map (fun q => snd q *~ nabs flux *~ nth (fst q) x n0) (combine (m_idx c) frac).
(** What the ports from 2 get, :686-692: port, constituent and mass flow.  [None] is a read beyond the end
    of the array of separated fluids.  [w] are the molecular weights. *)
Fixpoint ms_exits (c : msc) (w exit : list T) (ports : list nat) : option (list (nat * nat * T)) :=
  match ports with
  | [] => Some []
  | p :: r => match nth_error exit (p - 2), nth_error (m_idx c) (p - 2) with
              | Some e, Some i =>
                  match ms_exits c w exit r with
                  | Some l => let mdot := e *~ nth i w n0 in Some (if neps <~ mdot then (p, i, mdot) :: l else l)
                  | None => None
                  end
              | _, _ => None
              end
  end.
(** The flow to the downstream node, :718-744: its total and its mole fractions. *)
Definition ms_rest (c : msc) (x thru : list T) (flux : T) : list T * T :=
  fold_left (fun s q => (put (fst q) (nth (fst q) (fst s) n0 -~ snd q) (fst s), snd s -~ snd q)) (combine (m_idx c) thru)
    (map (fun y => flux *~ y) x, flux).
Definition ms_down (c : msc) (x thru : list T) (flux : T) : T * list T :=
  match m_idx c with
  | [] => (flux, x)
  | _ => let '(work, rest) := ms_rest c x thru flux in (rest, if neps <~ rest then map (fun y => y /~ rest) work else x)
  end.
(** A pass: potentials of ports 0 and 1, the admittance, mole fractions of the outflows of nodes 0 and 1,
    the fractions to separate. *)
Record mspass := mkmsp { s_p0 : T; s_p1 : T; s_a : T; s_x0 : list T; s_x1 : list T; s_frac : list T }.
Definition pass_flux (u : mspass) : T := ms_flux (s_p0 u) (s_p1 u) (s_a u).
Definition pass_x (u : mspass) : list T := if ms_up (pass_flux u) =? 1 then s_x1 u else s_x0 u.
Record mseff := mkeff { e_out : list T; e_down : list T; e_exit : list (nat * nat * T) }.
(** What a pass does: moles taken from the upstream node, moles given to the downstream node, masses given
    to the other ports; and what it has separated. *)
Definition ms_pass (c : msc) (w thru : list T) (u : mspass) : option (mseff * list T) :=
  let flux := pass_flux u in let x := pass_x u in let new := ms_thru c (s_frac u) x flux in
  match ms_exits c w thru (seq 2 (m_np c - 2)) with
  | None => None
  | Some ex =>
      let f := nabs flux in
      Some (if neps <~ f then let '(rest, y) := ms_down c x new f in mkeff (map (fun z => f *~ z) x) (map (fun z => rest *~ z) y) ex
            else mkeff [] [] ex, new)
  end.
Fixpoint ms_run (c : msc) (w thru : list T) (us : list mspass) : option (list mseff * list T) :=
  match us with
  | [] => Some ([], thru)
  | u :: r => match ms_pass c w thru u with
              | Some (e, t) => match ms_run c w t r with Some (es, t') => Some (e :: es, t') | None => None end
              | None => None
              end
  end.
End MSEP.
Arguments mspass T : clear implicits.
Arguments mseff T : clear implicits.
