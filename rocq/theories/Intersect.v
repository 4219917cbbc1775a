(** Line segment intersections.
    Source: /repo/ms-utils/math/intersect/LineSegmentIntersect.cpp.
    The vector operations are those of JEOD's Vector3, which is not part of the
    repository; their usual meaning is assumed: diff, cross, dot (summed left to right),
    vmag = sqrt (dot v v), scale.  [sq] is std::sqrt.  The output argument x is [None]
    when the caller passes NULL, and is otherwise returned updated. *)
From Coq Require Import ZArith Bool.
From Verif Require Import Num.

Section INTERSECT.
Context {T : Type} `{Num T} (sq : T -> T).

Record vec := V { vx : T; vy : T; vz : T }.
Definition diff (a b : vec) : vec := V (vx a -~ vx b) (vy a -~ vy b) (vz a -~ vz b).
Definition dot (a b : vec) : T := vx a *~ vx b +~ vy a *~ vy b +~ vz a *~ vz b.
Definition cross (a b : vec) : vec :=
  V (vy a *~ vz b -~ vz a *~ vy b) (vz a *~ vx b -~ vx a *~ vz b) (vx a *~ vy b -~ vy a *~ vx b).
Definition vmag (a : vec) : T := sq (dot a a).
Definition scale (s : T) (a : vec) : vec := V (vx a *~ s) (vy a *~ s) (vz a *~ s).

(** POINT_ON_LINE, LineSegmentIntersect.cpp:39-42. *)
Definition point_on_line (a b : vec) (t : T) : vec :=
  V (vx a +~ (vx b -~ vx a) *~ t) (vy a +~ (vy b -~ vy a) *~ t) (vz a +~ (vz b -~ vz a) *~ t).
(** EPSILON, line 45. *)
Definition epsilon : T := ndec 1 (-5).

Definition hit (x : option vec) (v : vec) : bool * option vec :=
  (true, match x with Some _ => Some v | None => None end).
Definition miss (x : option vec) : bool * option vec := (false, x).

(** triangle, LineSegmentIntersect.cpp:79-164. *)
Definition triangle (p q a b c : vec) (x : option vec) : bool * option vec :=
  let ab := diff b a in
  let ac := diff c a in
  let qp := diff p q in
  let n := cross ab ac in
  let d := dot qp n in
  if nabs d <~ epsilon then miss x
  else
    let ap := diff p a in
    let t := dot ap n in
    let e := cross qp ap in
    let v := dot ac e in
    let w := nopp (dot ab e) in
    if d <~ n0 then
      if n0 <~ t then miss x
      else if t <~ d then miss x
      else if (n0 <~ v) || (v <~ d) then miss x
      else if (n0 <~ w) || (v +~ w <~ d) then miss x
      else hit x (point_on_line p q (t /~ d))
    else
      if t <~ n0 then miss x
      else if d <~ t then miss x
      else if (v <~ n0) || (d <~ v) then miss x
      else if (w <~ n0) || (d <~ v +~ w) then miss x
      else hit x (point_on_line p q (t /~ d)).

(** cylinder, LineSegmentIntersect.cpp:180-293. *)
Definition cylinder (sa sb p q : vec) (r : T) (x : option vec) : bool * option vec :=
  let two := ndec 2 0 in
  let d := diff q p in
  let m := diff sa p in
  let n := diff sb sa in
  let md := dot m d in
  let nd := dot n d in
  let dd := dot d d in
  if (md <~ n0) && (md +~ nd <~ n0) then miss x
  else if (dd <~ md) && (dd <~ md +~ nd) then miss x
  else
    let nn := dot n n in
    let mn := dot m n in
    let a := dd *~ nn -~ nd *~ nd in
    let k := dot m m -~ r *~ r in
    let c := dd *~ k -~ md *~ md in
    if nabs a <~ epsilon then
      if n0 <~ c then miss x
      else
        let t := if md <~ n0 then nopp mn /~ nn
                 else if dd <~ md then (nd -~ mn) /~ nn
                 else n0 in
        hit x (point_on_line sa sb t)
    else
      let b := dd *~ mn -~ nd *~ md in
      let discr := b *~ b -~ a *~ c in
      if discr <~ n0 then miss x
      else
        let t := (nopp b -~ sq discr) /~ a in
        if (t <~ n0) || (n1 <~ t) then miss x
        else if md +~ t *~ nd <~ n0 then
          if nd <=~ n0 then miss x
          else
            let t := nopp md /~ nd in
            if k +~ two *~ t *~ (mn +~ t *~ nn) <=~ n0 then hit x (point_on_line sa sb t) else miss x
        else if dd <~ md +~ t *~ nd then
          if n0 <=~ nd then miss x
          else
            let t := (dd -~ md) /~ nd in
            if k +~ dd -~ two *~ md +~ t *~ (two *~ (mn -~ nd) +~ t *~ nn) <=~ n0
            then hit x (point_on_line sa sb t) else miss x
        else hit x (point_on_line sa sb t).

(** sphere, LineSegmentIntersect.cpp:310-367. *)
Definition sphere (p q sc : vec) (sr : T) (x : option vec) : bool * option vec :=
  let d := diff q p in
  let dist := vmag d in
  let d := scale (n1 /~ dist) d in
  let m := diff p sc in
  let b := dot m d in
  let c := dot m m -~ sr *~ sr in
  if (n0 <~ c) && (n0 <~ b) then miss x
  else
    let discr := b *~ b -~ c in
    if discr <~ n0 then miss x
    else
      let sqrtd := sq discr in
      let t := nopp b -~ sqrtd in
      if (t <~ n0) && (sqrtd <~ b) then miss x
      else
        let t := if t <~ n0 then n0 else t in
        if dist <~ t then miss x
        else hit x (V (vx p +~ t *~ vx d) (vy p +~ t *~ vy d) (vz p +~ t *~ vz d)).

(** spheroid, LineSegmentIntersect.cpp:386-424: x is transformed back whether or not
    there was a hit. *)
Definition spheroid (p q sc : vec) (srx sry srz : T) (x : option vec) : bool * option vec :=
  let to p := V ((vx p -~ vx sc) /~ srx) ((vy p -~ vy sc) /~ sry) ((vz p -~ vz sc) /~ srz) in
  let (r, x) := sphere (to p) (to q) (V n0 n0 n0) n1 x in
  (r, match x with
      | Some v => Some (V (vx v *~ srx +~ vx sc) (vy v *~ sry +~ vy sc) (vz v *~ srz +~ vz sc))
      | None => None
      end).
End INTERSECT.
Arguments vec : clear implicits.
