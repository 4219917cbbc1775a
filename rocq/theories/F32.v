(** IEEE binary32, the C++ [float], as Flocq's [binary_float 24 128].  Every operation
    rounds to nearest even.  The value computed by float code on a machine that
    evaluates float expressions in float (FLT_EVAL_METHOD 0) is meant. *)
From Coq Require Import Floats.
From Coq Require Import Reals Lra Lia Bool ZArith.
From Flocq Require Import Core.Core IEEE754.BinarySingleNaN.
From Verif Require Import Num Ord.

Local Notation float := Coq.Floats.PrimFloat.float.
Definition f32 : Type := binary_float 24 128.
Definition p32 : FLX.Prec_gt_0 24. Proof. reflexivity. Defined.
Definition m32 : Prec_lt_emax 24 128. Proof. reflexivity. Defined.
Local Existing Instance p32.
Local Existing Instance m32.

(** The nearest binary32 number of m * 2^e. *)
Definition norm32 (m e : Z) (s : bool) : f32 := binary_normalize 24 128 p32 m32 mode_NE m e s.
Definition sf32 (x : spec_float) : f32 :=
  match x with
  | S754_nan => B754_nan
  | S754_infinity s => B754_infinity s
  | S754_zero s => B754_zero s
  | S754_finite s m e =>
      match Bool.bool_dec (SpecFloat.bounded 24 128 m e) true with
      | left H => B754_finite s m e H
      | right _ => B754_nan
      end
  end.
(** The nearest binary32 number of a decimal literal. *)
Definition dec32 (m e : Z) : f32 :=
  match e with
  | Z0 => norm32 m 0 false
  | Zpos q => norm32 (m * 10 ^ Zpos q) 0 false
  | Zneg q =>
      match m with
      | Z0 => B754_zero false
      | Zpos p => sf32 (SFdiv 24 128 (S754_finite false p 0) (S754_finite false (Pos.pow 10 q) 0))
      | Zneg p => sf32 (SFdiv 24 128 (S754_finite true p 0) (S754_finite false (Pos.pow 10 q) 0))
      end
  end.

Global Instance F32Num : Num f32 := {
  n0   := B754_zero false;
  n1   := norm32 1 0 false;
  nadd := @Bplus 24 128 p32 m32 mode_NE;
  nsub := @Bminus 24 128 p32 m32 mode_NE;
  nmul := @Bmult 24 128 p32 m32 mode_NE;
  ndiv := @Bdiv 24 128 p32 m32 mode_NE;
  nopp := @Bopp 24 128;
  nabs := @Babs 24 128;
  nlt  := @Bltb 24 128;
  nle  := @Bleb 24 128;
  neqb := @Beqb 24 128;
  ndec := dec32;
  neps := norm32 1 (-23) false      (* FLT_EPSILON *)
}.

Definition key32 (x : f32) := sfkey (B2SF x).
Definition nan32 (x : f32) := sfnan (B2SF x).
Lemma ltb32 (x y : f32) : Bltb x y =
  negb (nan32 x || nan32 y) && match keycmp (key32 x) (key32 y) with Lt => true | _ => false end.
Proof. unfold Bltb, SFltb. rewrite sfcompare_key. unfold nan32, key32. destruct (sfnan _ || sfnan _); auto. Qed.
Lemma leb32 (x y : f32) : Bleb x y =
  negb (nan32 x || nan32 y) && match keycmp (key32 x) (key32 y) with Gt => false | _ => true end.
Proof. unfold Bleb, SFleb. rewrite sfcompare_key. unfold nan32, key32. destruct (sfnan _ || sfnan _); auto. Qed.
Lemma eqb32 (x y : f32) : Beqb x y =
  negb (nan32 x || nan32 y) && match keycmp (key32 x) (key32 y) with Eq => true | _ => false end.
Proof. unfold Beqb, SFeqb. rewrite sfcompare_key. unfold nan32, key32. destruct (sfnan _ || sfnan _); auto. Qed.
Lemma nnan32 (x : f32) : nnan x = nan32 x.
Proof. unfold nnan. cbn [neqb F32Num]. rewrite eqb32, keycmp_refl, orb_diag. destruct (nan32 x); auto. Qed.

Lemma nan32_opp (x : f32) : nan32 (Bopp x) = nan32 x.
Proof. unfold nan32. destruct x; reflexivity. Qed.
Lemma nan32_abs (x : f32) : nan32 (Babs x) = nan32 x.
Proof. unfold nan32. destruct x; reflexivity. Qed.
Lemma key32_opp (x : f32) : nan32 x = false -> key32 (Bopp x) = keyopp (key32 x).
Proof.
  unfold nan32, key32. destruct x as [s|s| |s m e B]; cbn [Bopp B2SF sfnan]; intro H; try discriminate;
    try destruct s; unfold keyopp, sfkey, negb; cbn [fst snd]; auto.
  now rewrite !Z.opp_involutive.
Qed.
Lemma opp_opp32 (x : f32) : Bopp (Bopp x) = x.
Proof. apply Bopp_involutive. Qed.

Global Instance F32Ord : NumOrd f32.
Proof.
  constructor; intros; rewrite ?nnan32 in *; cbn [nlt nle neqb n0 n1 nopp nabs F32Num] in *.
  all: rewrite ?ltb32, ?leb32, ?eqb32 in *; try (vm_compute; reflexivity).
  - rewrite H, H0. cbn [orb negb andb]. rewrite (keycmp_antisym (key32 x) (key32 y)).
    destruct (keycmp (key32 x) (key32 y)); auto.
  - rewrite H, H0. cbn [orb negb andb]. rewrite (keycmp_antisym (key32 x) (key32 y)).
    destruct (keycmp (key32 x) (key32 y)); auto.
  - rewrite keycmp_refl. apply andb_false_r.
  - destruct (nan32 x), (nan32 y), (nan32 z); try discriminate. cbn [orb negb andb] in *.
    assert (keyle (key32 x) (key32 z)) as K.
    { apply keyle_trans with (key32 y); unfold keyle; intro E; rewrite E in *; discriminate. }
    unfold keyle in K. destruct (keycmp (key32 x) (key32 z)); auto; congruence.
  - rewrite (keycmp_antisym (key32 x) (key32 y)).
    destruct (nan32 x), (nan32 y), (keycmp (key32 x) (key32 y)); reflexivity.
  - rewrite H. reflexivity.
  - rewrite H. reflexivity.
  - rewrite !nan32_opp, orb_comm. destruct (nan32 y || nan32 x) eqn:E; auto.
    apply orb_false_iff in E. destruct E. rewrite !key32_opp, keycmp_opp by auto. auto.
  - rewrite !nan32_opp, orb_comm. destruct (nan32 y || nan32 x) eqn:E; auto.
    apply orb_false_iff in E. destruct E. rewrite !key32_opp, keycmp_opp by auto. auto.
  - apply nan32_opp.
  - apply opp_opp32.
  - apply nan32_abs.
  - rewrite nan32_abs. unfold nan32, key32 in *.
    destruct x as [s|s| |s m e B]; cbn [Babs B2SF] in *; try destruct s; try discriminate;
      cbn [sfnan orb negb andb]; rewrite ?keycmp_refl; reflexivity.
  - rewrite nan32_abs, nan32_opp. unfold nan32, key32 in *.
    destruct x as [s|s| |s m e B]; cbn [Babs Bopp B2SF] in *; try destruct s; try discriminate;
      cbn [sfnan orb negb andb]; rewrite ?keycmp_refl; reflexivity.
Qed.

(** Conversions.  double to float rounds to nearest even; float to double is exact. *)
Definition narrow32 (x : float) : f32 :=
  match Prim2SF x with
  | S754_nan => B754_nan
  | S754_infinity s => B754_infinity s
  | S754_zero s => B754_zero s
  | S754_finite s m e => norm32 (if s then Zneg m else Zpos m) e s
  end.
Definition widen32 (x : f32) : float :=
  match x with
  | B754_nan => nan
  | B754_infinity s => if s then neg_infinity else infinity
  | B754_zero s => if s then (-0)%float else 0%float
  | B754_finite s m e _ => SF2Prim (SpecFloat.binary_normalize 53 1024 (if s then Zneg m else Zpos m) e s)
  end.
(** std::floor of a finite double as an integer; [None]: not finite. *)
Definition floor64 (x : float) : option Z :=
  match Prim2SF x with
  | S754_nan | S754_infinity _ => None
  | S754_zero _ => Some 0%Z
  | S754_finite s m e =>
      let z := if s then Zneg m else Zpos m in
      Some (if (0 <=? e)%Z then z * 2 ^ e else z / 2 ^ (- e))%Z
  end.

Example narrow_examples :
  B2SF (narrow32 1.5%float) = B2SF (norm32 3 (-1) false) /\
  B2SF (narrow32 0.1%float) = S754_finite false 13421773 (-27) /\
  B2SF (narrow32 1e39%float) = S754_infinity false /\
  B2SF (narrow32 (-1e-46)%float) = S754_zero true /\
  widen32 (narrow32 0.1%float) = 0x1.99999ap-4%float /\
  B2SF (dec32 1 (-1)) = S754_finite false 13421773 (-27) /\
  floor64 (-1.5)%float = Some (-2)%Z /\ floor64 1e9%float = Some 1000000000%Z.
Proof. vm_compute. auto 10. Qed.
