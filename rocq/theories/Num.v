(** Numbers.

    C++ [double] code is transcribed once over the operations below.  The
    comparison fields follow the C++ operators: [nlt a b] is [a < b], [nle a b]
    is [a <= b], [neqb a b] is [a == b]; a C++ [a > b] is transcribed as
    [nlt b a].  With the binary64 instance a comparison with NaN is [false],
    as in C++. *)
From Coq Require Import ZArith Reals Lra Lia Bool List Psatz.
From Coq Require Import Floats SpecFloat.
From Coq Require Uint63.

Class Num (T : Type) := {
  n0   : T;
  n1   : T;
  nadd : T -> T -> T;
  nsub : T -> T -> T;
  nmul : T -> T -> T;
  ndiv : T -> T -> T;
  nopp : T -> T;
  nabs : T -> T;          (* std::fabs *)
  nlt  : T -> T -> bool;
  nle  : T -> T -> bool;
  neqb : T -> T -> bool;
  ndec : Z -> Z -> T;     (* decimal literal m * 10^e *)
  neps : T                (* DBL_EPSILON *)
}.

Declare Scope num_scope.
Delimit Scope num_scope with num.
Infix "+~" := nadd (at level 50, left associativity) : num_scope.
Infix "-~" := nsub (at level 50, left associativity) : num_scope.
Infix "*~" := nmul (at level 40, left associativity) : num_scope.
Infix "/~" := ndiv (at level 40, left associativity) : num_scope.
Infix "<~" := nlt (at level 70, no associativity) : num_scope.
Infix "<=~" := nle (at level 70, no associativity) : num_scope.
Infix "==~" := neqb (at level 70, no associativity) : num_scope.
Global Open Scope num_scope.

(** std::max(a,b) returns a unless a < b; std::min(a,b) returns a unless b < a
    (C++ standard, [alg.min.max]); this matters for NaN and signed zeros. *)
Definition nmax {T} `{Num T} (a b : T) : T := if nlt a b then b else a.
Definition nmin {T} `{Num T} (a b : T) : T := if nlt b a then b else a.

(** ** Exact reals *)

Definition Rltb (a b : R) : bool := if Rlt_dec a b then true else false.
Definition Rleb (a b : R) : bool := if Rle_dec a b then true else false.
Definition Reqb (a b : R) : bool := if Req_EM_T a b then true else false.

(** DBL_EPSILON = 2^-52. *)
Definition Reps : R := (/ IZR (2 ^ 52))%R.

Definition Rdec (m e : Z) : R :=
  match e with
  | Z0     => IZR m
  | Zpos p => (IZR m * IZR (10 ^ Zpos p))%R
  | Zneg p => (IZR m / IZR (10 ^ Zpos p))%R
  end.

Global Instance RNum : Num R := {
  n0   := 0%R;
  n1   := 1%R;
  nadd := Rplus;
  nsub := Rminus;
  nmul := Rmult;
  ndiv := Rdiv;
  nopp := Ropp;
  nabs := Rabs;
  nlt  := Rltb;
  nle  := Rleb;
  neqb := Reqb;
  ndec := Rdec;
  neps := Reps
}.

Lemma Rltb_spec a b : reflect (a < b)%R (Rltb a b).
Proof. unfold Rltb; destruct (Rlt_dec a b); constructor; auto. Qed.
Lemma Rleb_spec a b : reflect (a <= b)%R (Rleb a b).
Proof. unfold Rleb; destruct (Rle_dec a b); constructor; auto. Qed.
Lemma Reqb_spec a b : reflect (a = b)%R (Reqb a b).
Proof. unfold Reqb; destruct (Req_EM_T a b); constructor; auto. Qed.

Lemma Rltb_true a b : (a < b)%R -> Rltb a b = true.
Proof. destruct (Rltb_spec a b); auto; lra. Qed.
Lemma Rltb_false a b : (b <= a)%R -> Rltb a b = false.
Proof. destruct (Rltb_spec a b); auto; lra. Qed.
Lemma Rleb_true a b : (a <= b)%R -> Rleb a b = true.
Proof. destruct (Rleb_spec a b); auto; lra. Qed.
Lemma Rleb_false a b : (b < a)%R -> Rleb a b = false.
Proof. destruct (Rleb_spec a b); auto; lra. Qed.
Lemma Reqb_true a b : a = b -> Reqb a b = true.
Proof. destruct (Reqb_spec a b); auto; lra. Qed.
Lemma Reqb_false a b : a <> b -> Reqb a b = false.
Proof. destruct (Reqb_spec a b); auto; lra. Qed.

Lemma Reps_pos : (0 < Reps)%R.
Proof. unfold Reps. apply Rinv_0_lt_compat. apply (IZR_lt 0). reflexivity. Qed.
Lemma Reps_small : (Reps < 1 / 1000000000000000)%R.
Proof.
  unfold Reps. change (2 ^ 52)%Z with 4503599627370496%Z. lra.
Qed.

(** Expose the real operations behind the class fields. *)
Ltac rnum := cbv beta iota delta
  [n0 n1 nadd nsub nmul ndiv nopp nabs nlt nle neqb ndec neps RNum] in *.

(** Case-split every real comparison in sight. *)
Ltac rcases1 :=
  match goal with
  | |- context [Rltb ?a ?b] => destruct (Rltb_spec a b)
  | |- context [Rleb ?a ?b] => destruct (Rleb_spec a b)
  | |- context [Reqb ?a ?b] => destruct (Reqb_spec a b)
  | H : context [Rltb ?a ?b] |- _ => destruct (Rltb_spec a b)
  | H : context [Rleb ?a ?b] |- _ => destruct (Rleb_spec a b)
  | H : context [Reqb ?a ?b] |- _ => destruct (Reqb_spec a b)
  end.
Ltac rcases := repeat (rcases1; cbn beta iota in *; try discriminate; try lra).

(** ** IEEE binary64 (Coq primitive floats) *)

Definition Fdec (m e : Z) : float :=
  match m with
  | Z0 => 0%float
  | Zpos p | Zneg p =>
      let s := match m with Zneg _ => true | _ => false end in
      match e with
      | Z0     => SF2Prim (binary_normalize 53 1024 m 0 s)
      | Zpos q => SF2Prim (binary_normalize 53 1024 (m * 10 ^ Zpos q) 0 s)
      | Zneg q => SF2Prim (SFdiv 53 1024 (S754_finite s p 0)
                                 (S754_finite false (Pos.pow 10 q) 0))
      end
  end.

Global Instance FNum : Num float := {
  n0   := 0%float;
  n1   := 1%float;
  nadd := PrimFloat.add;
  nsub := PrimFloat.sub;
  nmul := PrimFloat.mul;
  ndiv := PrimFloat.div;
  nopp := PrimFloat.opp;
  nabs := PrimFloat.abs;
  nlt  := PrimFloat.ltb;
  nle  := PrimFloat.leb;
  neqb := PrimFloat.eqb;
  ndec := Fdec;
  neps := 0x1p-52%float
}.

Example Fdec_one_tenth : Fdec 1 (-1) = 0.1%float.
Proof. vm_compute. reflexivity. Qed.
Example Fdec_tiny : Fdec (-1) (-100) = (-1e-100)%float.
Proof. vm_compute. reflexivity. Qed.
