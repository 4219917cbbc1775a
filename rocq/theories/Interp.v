(** * Model of the table interpolators

    Source: ms-utils/math/approximation/TsApproximation.{hh,cpp},
    TsLinearInterpolator.cpp, TsBilinearInterpolator.cpp and
    TsBilinearInterpolatorReverse.cpp.

    Simplifications:
    - The caller passes pointers to arrays with as many elements as it says and a
      name that is not empty, and no array size is negative.
    - An array is a function with a size; reading past the size, or through a null
      pointer, is the outcome [UB].  Memory is never exhausted.
    - The length of the rows is not tracked apart from [mN]: a look-up after a failed
      second initialisation is not modelled.
    - An initialisation gives the object it leaves behind and whether it succeeded
      (an exception was thrown if not). *)
From Coq Require Import List ZArith Bool Lia.
From Verif Require Import Num Loops MsgQueue MathUtil.
Import ListNotations.
Local Open Scope nat_scope.

(** Reading element [i] of an array of [n]. *)
Definition read {A} (n : nat) (f : nat -> A) (i : nat) : outcome A := if i <? n then Ret (f i) else UB.
Definition read2 {A} (m n : nat) (f : nat -> nat -> A) (i j : nat) : outcome A :=
  if (i <? m) && (j <? n) then Ret (f i j) else UB.
Definition set1 {A} (f : nat -> A) (i : nat) (v : A) : nat -> A := fun k => if k =? i then v else f k.

Section Interp.
  Context {T : Type} {N : Num T}.

  (** The checks on triples of neighbours: TsLinearInterpolator.cpp:99-108 and
      TsBilinearInterpolator.cpp:156-165, 168-177. *)
  Fixpoint ordered_from (n : nat) (x : nat -> T) (i cnt : nat) : outcome bool :=
    match cnt with
    | O => Ret true
    | S c =>
        let! a := read n x i in
        let! b := read n x (i + 1) in
        let! d := read n x (i + 2) in
        if (b <=~ a) && (b <=~ d) then Ret false
        else if (a <=~ b) && (d <=~ b) then Ret false
        else if nabs (a -~ b) <~ neps then Ret false
        else ordered_from n x (i + 1) c
    end.
  Definition ordered (n : nat) (x : nat -> T) : outcome bool := ordered_from n x 0 (n - 2).

  (** ** Linear *)

  (** TsLinearInterpolator.hh:50-53 and TsApproximation.hh:56-60. *)
  Record Lin := mkLin {
    l_alloc : bool;         (* mX and mZ are not null *)
    l_x : nat -> T;         (* mX *)
    l_z : nat -> T;         (* mZ *)
    l_n : nat;              (* mM *)
    l_i : nat;              (* mI *)
    l_min : T;              (* mMinX *)
    l_max : T;              (* mMaxX *)
    l_flag : bool           (* mInitFlag *) }.

  (** TsLinearInterpolator.cpp:19-28. *)
  Definition lin_new : Lin := mkLin false (fun _ => n0) (fun _ => n0) 0 0 n0 n0 false.

  (** TsLinearInterpolator.cpp:124-183, with TsApproximation.cpp:80-105. *)
  Definition lin_init (o : Lin) (x z : nat -> T) (n : nat) (minX maxX : T) : outcome (Lin * bool) :=
    (* TsApproximation::init *)
    if maxX <=~ minX then
      Ret (mkLin (l_alloc o) (l_x o) (l_z o) (l_n o) (l_i o) (l_min o) (l_max o) false, false)
    else
      let o := mkLin (l_alloc o) (l_x o) (l_z o) (l_n o) (l_i o) minX maxX false in
      if n <? 2 then Ret (o, false)
      else
        let! ok := ordered n x in
        if negb ok then Ret (o, false)
        else
          let! x1 := read n x 1 in
          let! x0 := read n x 0 in
          let down := x1 <~ x0 in
          let X := if down then fun i => x (n - i - 1) else x in
          let Z := if down then fun i => z (n - i - 1) else z in
          let! first := read n X 0 in
          let! last := read n X (n - 1) in
          if (minX <~ first) || (last <~ maxX) then
            Ret (mkLin false X Z n (l_i o) minX maxX false, false)
          else Ret (mkLin true X Z n (l_i o) minX maxX true, true).

  (** TsLinearInterpolator.cpp:206-210: the first index from [c] on whose value is
      above [x], or [size - 1]. *)
  Fixpoint up (X : nat -> T) (size : nat) (x : T) (fuel c : nat) : outcome nat :=
    match fuel with
    | O => Hang
    | S k =>
        if c <? size - 1 then
          let! a := read size X c in
          if x <~ a then Ret c else up X size x k (c + 1)
        else Ret c
    end.

  (** TsLinearInterpolator.cpp:215-219. *)
  Fixpoint down (X : nat -> T) (size : nat) (x : T) (c : nat) : outcome nat :=
    match c with
    | O => Ret 0
    | S c' =>
        let! a := read size X c in
        if a <=~ x then Ret c else down X size x c'
    end.

  (** TsLinearInterpolator.cpp:200-223. *)
  Definition select_cell (x : T) (X : nat -> T) (size c : nat) : outcome nat :=
    let! hi := read size X (c + 1) in
    if hi <=~ x then
      let! c := up X size x (S size) (c + 1) in
      Ret (c - 1)
    else
      let! lo := read size X c in
      if (x <~ lo) && (0 <? c) then down X size x (c - 1)
      else Ret c.

  (** The formula of TsLinearInterpolator.cpp:240. *)
  Definition lin_formula (X Z : nat -> T) (i : nat) (x : T) : T :=
    Z i +~ (Z (i + 1) -~ Z i) *~ (x -~ X i) /~ (X (i + 1) -~ X i).

  Definition lin_with_i (o : Lin) (i : nat) : Lin :=
    mkLin (l_alloc o) (l_x o) (l_z o) (l_n o) i (l_min o) (l_max o) (l_flag o).

  (** TsLinearInterpolator.cpp:235-241. *)
  Definition lin_evaluate (o : Lin) (x : T) : outcome (Lin * T) :=
    if negb (l_alloc o) then UB
    else
      let! i := select_cell x (l_x o) (l_n o) (l_i o) in
      let! _ := read (l_n o) (l_z o) i in
      let! _ := read (l_n o) (l_z o) (i + 1) in
      Ret (lin_with_i o i, lin_formula (l_x o) (l_z o) i x).

  (** TsApproximation.hh:97-101. *)
  Definition lin_get (o : Lin) (x : T) : outcome (Lin * T) :=
    lin_evaluate o (limit_range (l_min o) x (l_max o)).

  (** TsApproximation.cpp:117-128; [None] is an exception. *)
  Definition lin_get_exceptional (o : Lin) (x : T) : outcome (Lin * option T) :=
    if (x <~ l_min o) || (l_max o <~ x) then Ret (o, None)
    else let! (o, v) := lin_evaluate o x in Ret (o, Some v).

  (** A sequence of calls of get. *)
  Fixpoint lin_gets (o : Lin) (xs : list T) : outcome (Lin * list T) :=
    match xs with
    | [] => Ret (o, [])
    | x :: r =>
        let! (o, v) := lin_get o x in
        let! (o, vs) := lin_gets o r in
        Ret (o, v :: vs)
    end.

  (** ** Bilinear *)

  (** TsBilinearInterpolator.hh:62-68 and TsApproximation.hh:56-60. *)
  Record Bil := mkBil {
    b_rows : nat;               (* allocated rows of mZ, 0 when mX, mY and mZ are null *)
    b_x : nat -> T;             (* mX *)
    b_y : nat -> T;             (* mY *)
    b_z : nat -> nat -> T;      (* mZ *)
    b_m : nat;                  (* mM *)
    b_n : nat;                  (* mN *)
    b_i : nat;                  (* mI *)
    b_j : nat;                  (* mJ *)
    b_minx : T; b_maxx : T; b_miny : T; b_maxy : T;
    b_flag : bool               (* mInitFlag *) }.

  (** TsBilinearInterpolator.cpp:19-31. *)
  Definition bil_new : Bil :=
    mkBil 0 (fun _ => n0) (fun _ => n0) (fun _ _ => n0) 0 0 0 0 n0 n0 n0 n0 false.

  (** TsBilinearInterpolator.cpp:86-101.  The loop frees [mM] rows, whatever was
      allocated. *)
  Definition bil_cleanup (o : Bil) : outcome Bil :=
    if b_rows o <? b_m o then UB
    else Ret (mkBil 0 (b_x o) (b_y o) (b_z o) (b_m o) (b_n o) (b_i o) (b_j o)
                (b_minx o) (b_maxx o) (b_miny o) (b_maxy o) (b_flag o)).

  (** TsBilinearInterpolator.cpp:203-209: one step of the loop that turns the first
      variable round. *)
  Definition turn_row (m n : nat) (x : nat -> T) (i : nat) (s : (nat -> T) * (nat -> nat -> T))
    : (nat -> T) * (nat -> nat -> T) :=
    let X := set1 (set1 (fst s) i (x (m - i - 1))) (m - i - 1) (x i) in
    let Z := fun r j => if n <=? j then snd s r j
                        else if r =? i then snd s (m - i - 1) j
                        else if r =? m - i - 1 then snd s i j
                        else snd s r j in
    (X, Z).

  (** TsBilinearInterpolator.cpp:221-227, for the second variable. *)
  Definition turn_col (m n : nat) (y : nat -> T) (i : nat) (s : (nat -> T) * (nat -> nat -> T))
    : (nat -> T) * (nat -> nat -> T) :=
    let Y := set1 (set1 (fst s) i (y (n - i - 1))) (n - i - 1) (y i) in
    let Z := fun r j => if m <=? r then snd s r j
                        else if j =? i then snd s r (n - i - 1)
                        else if j =? n - i - 1 then snd s r i
                        else snd s r j in
    (Y, Z).

  (** TsBilinearInterpolator.cpp:200-215 and 218-233: what is stored. *)
  Definition store_x (m n : nat) (x X0 : nat -> T) (Z : nat -> nat -> T) : (nat -> T) * (nat -> nat -> T) :=
    if x 1 <~ x 0 then loop (turn_row m n x) 0 (m / 2 + 1) (X0, Z) else (x, Z).
  Definition store_y (m n : nat) (y Y0 : nat -> T) (Z : nat -> nat -> T) : (nat -> T) * (nat -> nat -> T) :=
    if y 1 <~ y 0 then loop (turn_col m n y) 0 (n / 2 + 1) (Y0, Z) else (y, Z).

  (** TsBilinearInterpolator.cpp:120-265, with TsApproximation.cpp:80-105.  [z] holds
      the rows one after the other.  The elements of new arrays are those of [junk]. *)
  Definition bil_init (junk : nat -> T) (o : Bil) (x y z : nat -> T) (m n : nat)
      (minX maxX minY maxY : T) : outcome (Bil * bool) :=
    if (maxX <=~ minX) || (maxY <=~ minY) then
      Ret (mkBil (b_rows o) (b_x o) (b_y o) (b_z o) (b_m o) (b_n o) (b_i o) (b_j o)
             (b_minx o) (b_maxx o) (b_miny o) (b_maxy o) false, false)
    else
      let o := mkBil (b_rows o) (b_x o) (b_y o) (b_z o) m n (b_i o) (b_j o)
                 minX maxX minY maxY false in
      if (m <? 2) || (n <? 2) then Ret (o, false)
      else
        let! okx := ordered m x in
        if negb okx then Ret (o, false)
        else
          let! oky := ordered n y in
          if negb oky then Ret (o, false)
          else
            let XZ := store_x m n x junk (fun i j => z (i * n + j)) in
            let YZ := store_y m n y junk (snd XZ) in
            let o := mkBil m (fst XZ) (fst YZ) (snd YZ) m n (b_i o) (b_j o) minX maxX minY maxY false in
            if (minX <~ b_x o 0) || (b_x o (m - 1) <~ maxX) then
              let! o := bil_cleanup o in Ret (o, false)
            else if (minY <~ b_y o 0) || (b_y o (n - 1) <~ maxY) then
              let! o := bil_cleanup o in Ret (o, false)
            else
              Ret (mkBil m (b_x o) (b_y o) (b_z o) m n 0 0 minX maxX minY maxY false, true).

  (** TsBilinearInterpolator.cpp:282-287: the first index from [i] on whose value is
      not below [x]. *)
  Fixpoint search_up (X : nat -> T) (x : T) (cnt i : nat) : option nat :=
    match cnt with
    | O => None
    | S k => if x <=~ X i then Some i else search_up X x k (i + 1)
    end.

  (** TsBilinearInterpolator.cpp:290-295: the last index before [c] whose value is
      not above [x]. *)
  Fixpoint search_down (X : nat -> T) (x : T) (c : nat) : option nat :=
    match c with
    | O => None
    | S i => if X i <=~ x then Some i else search_down X x i
    end.

  (** TsBilinearInterpolator.cpp:280-296 and 300-316. *)
  Definition find_cell (X : nat -> T) (m c : nat) (x : T) : outcome nat :=
    let! hi := read m X (c + 1) in
    if hi <=~ x then
      match search_up X x (m - (c + 1)) (c + 1) with Some i => Ret (i - 1) | None => Ret c end
    else
      let! lo := read m X c in
      if x <~ lo then
        match search_down X x c with Some i => Ret i | None => Ret c end
      else Ret c.

  (** The formula of TsBilinearInterpolator.cpp:320-323. *)
  Definition bil_formula (X Y : nat -> T) (Z : nat -> nat -> T) (i j : nat) (x y : T) : T :=
    let inv := n1 /~ (X (i + 1) -~ X i) in
    let z1 := (X (i + 1) -~ x) *~ Z i j +~ (x -~ X i) *~ Z (i + 1) j in
    let z2 := (X (i + 1) -~ x) *~ Z i (j + 1) +~ (x -~ X i) *~ Z (i + 1) (j + 1) in
    (z1 *~ (Y (j + 1) -~ y) +~ z2 *~ (y -~ Y j)) *~ inv /~ (Y (j + 1) -~ Y j).

  Definition bil_with_ij (o : Bil) (i j : nat) : Bil :=
    mkBil (b_rows o) (b_x o) (b_y o) (b_z o) (b_m o) (b_n o) i j
      (b_minx o) (b_maxx o) (b_miny o) (b_maxy o) (b_flag o).

  (** TsBilinearInterpolator.cpp:276-324. *)
  Definition bil_evaluate (o : Bil) (x y : T) : outcome (Bil * T) :=
    if b_rows o <? b_m o then UB
    else
      let! i := find_cell (b_x o) (b_m o) (b_i o) x in
      let! j := find_cell (b_y o) (b_n o) (b_j o) y in
      let! _ := read2 (b_m o) (b_n o) (b_z o) (i + 1) (j + 1) in
      Ret (bil_with_ij o i j, bil_formula (b_x o) (b_y o) (b_z o) i j x y).

  (** TsApproximation.hh:97-101. *)
  Definition bil_get (o : Bil) (x y : T) : outcome (Bil * T) :=
    bil_evaluate o (limit_range (b_minx o) x (b_maxx o)) (limit_range (b_miny o) y (b_maxy o)).

  Fixpoint bil_gets (o : Bil) (ps : list (T * T)) : outcome (Bil * list T) :=
    match ps with
    | [] => Ret (o, [])
    | (x, y) :: r =>
        let! (o, v) := bil_get o x y in
        let! (o, vs) := bil_gets o r in
        Ret (o, v :: vs)
    end.

  (** The destructors, TsLinearInterpolator.cpp:60-65 (deleting null is harmless) and
      TsBilinearInterpolator.cpp:72-81. *)
  Definition bil_destroy (o : Bil) : outcome unit := let! _ := bil_cleanup o in Ret tt.

  (** ** Bilinear, reverse *)

  (** TsBilinearInterpolatorReverse.cpp:77-87: one element of the scan for the
      smallest and the largest value. *)
  Definition scan_one (s : T * T) (v : T) : T * T :=
    if v <~ fst s then (v, snd s) else if snd s <~ v then (fst s, v) else s.
  Definition scan (m n : nat) (Z : nat -> nat -> T) : T * T :=
    loop (fun i s => loop (fun j s => scan_one s (Z i j)) 0 n s) 0 m (ndec 1 16, nopp (ndec 1 16)).

  (** TsBilinearInterpolatorReverse.cpp:70-91. *)
  Definition rev_init (o : Bil) : outcome Bil :=
    if b_rows o <? b_m o then UB
    else
      let s := scan (b_m o) (b_n o) (b_z o) in
      Ret (mkBil (b_rows o) (b_x o) (b_y o) (b_z o) (b_m o) (b_n o) (b_i o) (b_j o)
             (b_minx o) (b_maxx o) (fst s) (snd s) true).

  (** TsBilinearInterpolatorReverse.cpp:221-228. *)
  Definition is_between (a x b : T) : bool :=
    if a <=~ b then is_in_range a x b else is_in_range b x a.

  (** The value on the line at [frac] between two rows,
      TsBilinearInterpolatorReverse.cpp:146. *)
  Definition mix (Z : nat -> nat -> T) (i : nat) (frac : T) (j : nat) : T :=
    Z i j +~ frac *~ (Z (i + 1) j -~ Z i j).

  (** TsBilinearInterpolatorReverse.cpp:148-211.  [dir] is 0, 1 or -1; [tail] and
      [head] are the values at the ends of cell [j]. *)
  Fixpoint rev_loop (o : Bil) (i : nat) (frac z : T) (cnt : nat) (dir : Z) (j : nat) (tail head delta y : T)
    : nat * T :=
    match cnt with
    | O => (j, y)
    | S k =>
        if is_between tail z head then
          (j, if negb (head ==~ tail)
              then b_y o j +~ (b_y o (j + 1) -~ b_y o j) *~ (z -~ tail) /~ (head -~ tail)
              else ndec 5 (-1) *~ (b_y o j +~ b_y o (j + 1)))
        else
          let headD := nabs (z -~ head) in
          let tailD := nabs (z -~ tail) in
          let '(y, delta) := if headD <~ delta then (b_y o (j + 1), headD) else (y, delta) in
          let '(y, delta) := if tailD <~ delta then (b_y o j, tailD) else (y, delta) in
          let dir := (if dir =? 0 then if headD <~ tailD then 1 else -1 else dir)%Z in
          let at_ := mix (b_z o) i frac in
          if (0 <? dir)%Z then
            if b_n o - 2 <? j + 1 then rev_loop o i frac z k dir 0 (at_ 0) (at_ 1) delta y
            else rev_loop o i frac z k dir (j + 1) head (at_ (j + 2)) delta y
          else
            match j with
            | O => rev_loop o i frac z k dir (b_n o - 2) (at_ (b_n o - 2)) (at_ (b_n o - 1)) delta y
            | S j' => rev_loop o i frac z k dir j' (at_ j') tail delta y
            end
    end.

  (** TsBilinearInterpolatorReverse.cpp:109-213. *)
  Definition rev_evaluate (o : Bil) (x z : T) : outcome (Bil * T) :=
    if b_rows o <? b_m o then UB
    else
      let! i := find_cell (b_x o) (b_m o) (b_i o) x in
      let j := b_j o in
      let! _ := read2 (b_m o) (b_n o) (b_z o) (i + 1) (j + 1) in
      let frac := (x -~ b_x o i) /~ (b_x o (i + 1) -~ b_x o i) in
      let '(j', y) := rev_loop o i frac z (b_n o - 1) 0 j (mix (b_z o) i frac j) (mix (b_z o) i frac (j + 1))
                        (ndec 1 16) (b_y o j) in
      Ret (bil_with_ij o i j', y).

  Definition rev_get (o : Bil) (x z : T) : outcome (Bil * T) :=
    rev_evaluate o (limit_range (b_minx o) x (b_maxx o)) (limit_range (b_miny o) z (b_maxy o)).

  (** A sequence of calls of get. *)
  Fixpoint rev_gets (o : Bil) (ps : list (T * T)) : outcome (Bil * list T) :=
    match ps with
    | [] => Ret (o, [])
    | (x, z) :: r =>
        let! (o, v) := rev_get o x z in
        let! (o, vs) := rev_gets o r in
        Ret (o, v :: vs)
    end.
End Interp.
Arguments Lin T : clear implicits.
Arguments Bil T : clear implicits.
