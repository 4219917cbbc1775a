(** * Model of the bracketing root finder

    Source: ms-utils/math/root_finding/BrentMethod.cpp.

    Simplification: [evaluate] is a function of its argument alone. *)
From Coq Require Import List ZArith Bool Lia.
From Verif Require Import Num.
Import ListNotations.

Section Brent.
  Context {T : Type} {N : Num T}.
  Variable f : T -> T.

  (** What [solve] does: return, with the value left in [x] and the number of
      iterations, or throw one of two exceptions. *)
  Inductive answer := Found (x : T) (iter : nat) | NotBracketed | NotConverged.

  (** The variables that live from one iteration to the next. *)
  Record Vars := mkVars { va : T; vb : T; vc : T; vd : T; ve : T; vfa : T; vfb : T; vfc : T }.

  (** BrentMethod.cpp:73 and 96. *)
  Definition same_sign (u v : T) : bool := (n0 <~ u) && (n0 <~ v) || (u <~ n0) && (v <~ n0).

  (** BrentMethod.cpp:96-101. *)
  Definition rename (w : Vars) : Vars :=
    if same_sign (vfb w) (vfc w) then
      let d := vb w -~ va w in mkVars (va w) (vb w) (va w) d d (vfa w) (vfb w) (vfa w)
    else w.

  (** BrentMethod.cpp:102-109. *)
  Definition best_first (w : Vars) : Vars :=
    if nabs (vfc w) <~ nabs (vfb w) then
      mkVars (vb w) (vc w) (vb w) (vd w) (ve w) (vfb w) (vfc w) (vfb w)
    else w.

  (** BrentMethod.cpp:112-113. *)
  Definition tol1 (tol : T) (w : Vars) : T := ndec 2 0 *~ neps *~ nabs (vb w) +~ ndec 5 (-1) *~ tol.
  Definition xmid (w : Vars) : T := ndec 5 (-1) *~ (vc w -~ vb w).

  (** BrentMethod.cpp:114. *)
  Definition converged (tol : T) (w : Vars) : bool :=
    (nabs (xmid w) <=~ tol1 tol w) || (n0 ==~ vfb w).

  (** BrentMethod.cpp:121-130: the trial step as a quotient. *)
  Definition quotient (w : Vars) : T * T :=
    let s := vfb w /~ vfa w in
    if va w ==~ vc w then (ndec 2 0 *~ xmid w *~ s, n1 -~ s)
    else
      let q := vfa w /~ vfc w in
      let r := vfb w /~ vfc w in
      (s *~ (ndec 2 0 *~ xmid w *~ q *~ (q -~ r) -~ (vb w -~ va w) *~ (r -~ n1)),
       (q -~ n1) *~ (r -~ n1) *~ (s -~ n1)).

  (** BrentMethod.cpp:120-150: the new step and the one before. *)
  Definition step_size (tol : T) (w : Vars) : T * T :=
    let t := tol1 tol w in
    let xm := xmid w in
    if (t <=~ nabs (ve w)) && (nabs (vfb w) <~ nabs (vfa w)) then
      let '(p, q) := quotient w in
      let q := if n0 <~ p then nopp q else q in
      let p := nabs p in
      let min1 := ndec 3 0 *~ xm *~ q -~ nabs (t *~ q) in
      let min2 := nabs (ve w *~ q) in
      if ndec 2 0 *~ p <~ (if min1 <~ min2 then min1 else min2) then (p /~ q, vd w)
      else (xm, xm)
    else (xm, xm).

  (** BrentMethod.cpp:153-161: the next trial point. *)
  Definition trial (tol : T) (w : Vars) (d : T) : T :=
    let t := tol1 tol w in
    if t <~ nabs d then vb w +~ d
    else if n0 <=~ xmid w then vb w +~ t else vb w -~ t.

  (** BrentMethod.cpp:120-162. *)
  Definition advance (tol : T) (w : Vars) : Vars :=
    let '(d, e) := step_size tol w in
    let b := trial tol w d in
    mkVars (vb w) b (vc w) d e (vfb w) (f b) (vfc w).

  (** BrentMethod.cpp:95-167.  The arguments of [evaluate] are collected. *)
  Fixpoint iterate (tol : T) (cnt iter : nat) (w : Vars) : answer * list T :=
    match cnt with
    | O => (NotConverged, [])
    | S k =>
        let w := best_first (rename w) in
        if converged tol w then (Found (vb w) iter, [])
        else
          let w := advance tol w in
          let '(r, l) := iterate tol k (S iter) w in
          (r, vb w :: l)
    end.

  (** BrentMethod.cpp:63-168. *)
  Definition solve (x1 x2 tol : T) : answer * list T :=
    let fa := f x1 in
    let fb := f x2 in
    if same_sign fa fb then (NotBracketed, [x1; x2])
    else
      let '(r, l) := iterate tol 100 1 (mkVars x1 x2 x2 n0 n0 fa fb fb) in
      (r, x1 :: x2 :: l).
End Brent.
Arguments answer T : clear implicits.
Arguments Vars T : clear implicits.
