(** The comparison operators of the two number types obey the laws of a total
    preorder away from NaN.  Proofs about limiting code use only these laws, so
    they hold for exact reals and for IEEE binary64 alike. *)
From Coq Require Import Floats Reals Lra Lia List Arith Bool ZArith.
From Verif Require Import Num.
Import ListNotations.

(** x != x, the C++ NaN test. *)
Definition nnan {T} {N : Num T} (x : T) : bool := negb (x ==~ x).

Class NumOrd (T : Type) {N : Num T} : Prop := {
  ord_total : forall x y : T, nnan x = false -> nnan y = false -> (x <=~ y) = negb (y <~ x);
  ord_le_total : forall x y : T, nnan x = false -> nnan y = false -> (x <=~ y) || (y <=~ x) = true;
  ord_irrefl : forall x : T, (x <~ x) = false;
  ord_le_trans : forall x y z : T, (x <=~ y) = true -> (y <=~ z) = true -> (x <=~ z) = true;
  ord_le_antisym : forall x y : T, (x ==~ y) = (x <=~ y) && (y <=~ x);
  ord_nan_lt : forall x y : T, nnan x || nnan y = true -> (x <~ y) = false;
  ord_nan_le : forall x y : T, nnan x || nnan y = true -> (x <=~ y) = false;
  ord_0 : nnan (n0 : T) = false;
  ord_1 : nnan (n1 : T) = false;
  ord_01 : ((n0 : T) <~ n1) = true;
  ord_opp_lt : forall x y : T, (nopp x <~ nopp y) = (y <~ x);
  ord_opp_le : forall x y : T, (nopp x <=~ nopp y) = (y <=~ x);
  ord_opp_nan : forall x : T, nnan (nopp x) = nnan x;
  ord_opp_0 : (nopp n0 ==~ (n0 : T)) = true;
  ord_opp_opp : forall x : T, nopp (nopp x) = x;
  ord_abs_nan : forall x : T, nnan (nabs x) = nnan x;
  ord_abs_pos : forall x : T, (n0 <=~ x) = true -> (nabs x ==~ x) = true;
  ord_abs_neg : forall x : T, (x <=~ n0) = true -> (nabs x ==~ nopp x) = true
}.

Global Instance ROrd : NumOrd R.
Proof.
  assert (E : forall x : R, nnan x = false)
    by (intros x; unfold nnan; rnum; rewrite Reqb_true; auto).
  constructor; intros; try rewrite !E in *; rnum; cbn in *; try discriminate; auto.
  all: try (rcases; reflexivity || (exfalso; lra) || lra).
  all: try apply Ropp_involutive.
  - destruct (Rleb_spec 0 x) as [H0|]; [|discriminate].
    rewrite Rabs_pos_eq by auto. rcases; reflexivity.
  - destruct (Rleb_spec x 0) as [H0|]; [|discriminate].
    rewrite Rabs_left1 by auto. rcases; reflexivity.
Qed.

(** ** binary64 *)

(** Lexicographic key of a non-NaN float. *)
Definition sfkey (x : spec_float) : Z * (Z * Z) :=
  match x with
  | S754_nan => (3, (0, 0))%Z
  | S754_infinity true => (-2, (0, 0))%Z
  | S754_infinity false => (2, (0, 0))%Z
  | S754_zero _ => (0, (0, 0))%Z
  | S754_finite true m e => (-1, (- e, - Zpos m))%Z
  | S754_finite false m e => (1, (e, Zpos m))%Z
  end.
Definition keycmp (a b : Z * (Z * Z)) : comparison :=
  match (fst a ?= fst b)%Z with
  | Eq => match (fst (snd a) ?= fst (snd b))%Z with
          | Eq => (snd (snd a) ?= snd (snd b))%Z | c => c end
  | c => c end.
Definition sfnan (x : spec_float) : bool := match x with S754_nan => true | _ => false end.

Lemma sfcompare_key x y :
  SFcompare x y = if sfnan x || sfnan y then None else Some (keycmp (sfkey x) (sfkey y)).
Proof.
  destruct x as [sx|sx| |sx mx ex], y as [sy|sy| |sy my ey]; try reflexivity;
    destruct sx; try reflexivity; try destruct sy; try reflexivity;
    unfold SFcompare, keycmp; cbn [sfnan orb sfkey fst snd]; f_equal.
  - change (-1 ?= -1)%Z with Eq. cbv iota.
    rewrite !Z.compare_opp, (Z.compare_antisym ex ey).
    destruct (ex ?= ey)%Z; auto. cbn [CompOpp].
    rewrite (Z.compare_antisym (Zpos mx) (Zpos my)). reflexivity.
Qed.

Lemma keycmp_antisym a b : keycmp b a = CompOpp (keycmp a b).
Proof.
  unfold keycmp. rewrite (Z.compare_antisym (fst a) (fst b)).
  rewrite (Z.compare_antisym (fst (snd a)) (fst (snd b))).
  rewrite (Z.compare_antisym (snd (snd a)) (snd (snd b))).
  destruct (fst a ?= fst b)%Z; auto. destruct (fst (snd a) ?= fst (snd b))%Z; auto.
Qed.
Lemma keycmp_refl a : keycmp a a = Eq.
Proof. unfold keycmp. rewrite !Z.compare_refl. auto. Qed.
Definition keyle a b := keycmp a b <> Gt.
Lemma keyle_trans a b c : keyle a b -> keyle b c -> keyle a c.
Proof.
  unfold keyle, keycmp. intros H1 H2.
  destruct (Z.compare_spec (fst a) (fst b)), (Z.compare_spec (fst b) (fst c)),
           (Z.compare_spec (fst a) (fst c)); try congruence; try lia;
  destruct (Z.compare_spec (fst (snd a)) (fst (snd b))), (Z.compare_spec (fst (snd b)) (fst (snd c))),
           (Z.compare_spec (fst (snd a)) (fst (snd c))); try congruence; try lia;
  destruct (Z.compare_spec (snd (snd a)) (snd (snd b))), (Z.compare_spec (snd (snd b)) (snd (snd c))),
           (Z.compare_spec (snd (snd a)) (snd (snd c))); try congruence; try lia.
Qed.

Definition fkey (x : float) := sfkey (Prim2SF x).
Definition fnan (x : float) := sfnan (Prim2SF x).

Lemma fltb_key x y : PrimFloat.ltb x y =
  negb (fnan x || fnan y) && match keycmp (fkey x) (fkey y) with Lt => true | _ => false end.
Proof.
  rewrite FloatAxioms.ltb_spec. unfold SFltb. rewrite sfcompare_key.
  unfold fnan, fkey. destruct (sfnan _ || sfnan _); auto.
Qed.
Lemma fleb_key x y : PrimFloat.leb x y =
  negb (fnan x || fnan y) && match keycmp (fkey x) (fkey y) with Gt => false | _ => true end.
Proof.
  rewrite FloatAxioms.leb_spec. unfold SFleb. rewrite sfcompare_key.
  unfold fnan, fkey. destruct (sfnan _ || sfnan _); auto.
Qed.
Lemma feqb_key x y : PrimFloat.eqb x y =
  negb (fnan x || fnan y) && match keycmp (fkey x) (fkey y) with Eq => true | _ => false end.
Proof.
  rewrite FloatAxioms.eqb_spec. unfold SFeqb. rewrite sfcompare_key.
  unfold fnan, fkey. destruct (sfnan _ || sfnan _); auto.
Qed.
Lemma fnnan x : nnan (x : float) = fnan x.
Proof.
  unfold nnan. cbn [neqb FNum]. rewrite feqb_key, keycmp_refl, orb_diag. destruct (fnan x); auto.
Qed.

Definition keyopp (a : Z * (Z * Z)) := (- fst a, (- fst (snd a), - snd (snd a)))%Z.
Lemma keycmp_opp a b : keycmp (keyopp a) (keyopp b) = keycmp b a.
Proof. unfold keycmp, keyopp. cbn [fst snd]. rewrite !Z.compare_opp. reflexivity. Qed.
Lemma fnan_opp x : fnan (- x) = fnan x.
Proof. unfold fnan. rewrite opp_spec. destruct (Prim2SF x); reflexivity. Qed.
Lemma fkey_opp x : fnan x = false -> fkey (- x) = keyopp (fkey x).
Proof.
  unfold fnan, fkey. rewrite opp_spec. destruct (Prim2SF x) as [s|s| |s m e]; intro H;
    try discriminate; try destruct s; unfold keyopp, SFopp, sfkey, negb; cbn [fst snd]; auto.
  rewrite !Z.opp_involutive. reflexivity.
Qed.
Lemma fnan_abs x : fnan (abs x) = fnan x.
Proof. unfold fnan. rewrite abs_spec. destruct (Prim2SF x); reflexivity. Qed.
Lemma fopp_opp x : (- - x)%float = x.
Proof.
  apply Prim2SF_inj. rewrite !opp_spec. destruct (Prim2SF x); cbn; rewrite ?negb_involutive; auto.
Qed.

Global Instance FOrd : NumOrd float.
Proof.
  constructor; intros; rewrite ?fnnan in *; cbn [nlt nle neqb n0 n1 nopp nabs FNum] in *.
  all: rewrite ?fltb_key, ?fleb_key, ?feqb_key in *; try reflexivity.
  - rewrite H, H0. cbn [orb negb andb]. rewrite (keycmp_antisym (fkey x) (fkey y)).
    destruct (keycmp (fkey x) (fkey y)); auto.
  - rewrite H, H0. cbn [orb negb andb]. rewrite (keycmp_antisym (fkey x) (fkey y)).
    destruct (keycmp (fkey x) (fkey y)); auto.
  - rewrite keycmp_refl. apply andb_false_r.
  - destruct (fnan x), (fnan y), (fnan z); try discriminate. cbn [orb negb andb] in *.
    assert (keyle (fkey x) (fkey z)) as K.
    { apply keyle_trans with (fkey y); unfold keyle; intro E; rewrite E in *; discriminate. }
    unfold keyle in K. destruct (keycmp (fkey x) (fkey z)); auto; congruence.
  - rewrite (keycmp_antisym (fkey x) (fkey y)).
    destruct (fnan x), (fnan y), (keycmp (fkey x) (fkey y)); reflexivity.
  - rewrite H. reflexivity.
  - rewrite H. reflexivity.
  - rewrite !fnan_opp, orb_comm. destruct (fnan y || fnan x) eqn:E; auto.
    apply orb_false_iff in E. destruct E. rewrite !fkey_opp, keycmp_opp by auto. auto.
  - rewrite !fnan_opp, orb_comm. destruct (fnan y || fnan x) eqn:E; auto.
    apply orb_false_iff in E. destruct E. rewrite !fkey_opp, keycmp_opp by auto. auto.
  - apply fnan_opp.
  - apply fopp_opp.
  - apply fnan_abs.
  - rewrite fnan_abs. unfold fnan, fkey in *. rewrite abs_spec.
    change (Prim2SF 0) with (S754_zero false) in *.
    destruct (Prim2SF x) as [s|s| |s m e]; try discriminate; try destruct s; try discriminate;
      cbn [SFabs sfnan orb negb andb]; rewrite keycmp_refl; reflexivity.
  - rewrite fnan_abs, fnan_opp. unfold fnan, fkey in *. rewrite abs_spec, opp_spec.
    change (Prim2SF 0) with (S754_zero false) in *.
    destruct (Prim2SF x) as [s|s| |s m e]; try discriminate; try destruct s; try discriminate;
      cbn [SFabs SFopp sfnan orb negb andb]; rewrite keycmp_refl; reflexivity.
Qed.

(** ** Derived laws *)
Section LAWS.
Context {T : Type} {N : Num T} {O : NumOrd T}.
Implicit Types x y z lo hi : T.

Lemma le_nan x y : (x <=~ y) = true -> nnan x = false /\ nnan y = false.
Proof.
  intro H. destruct (nnan x || nnan y) eqn:E.
  - rewrite (ord_nan_le x y E) in H. discriminate.
  - apply orb_false_iff. auto.
Qed.
Lemma lt_nan x y : (x <~ y) = true -> nnan x = false /\ nnan y = false.
Proof.
  intro H. destruct (nnan x || nnan y) eqn:E.
  - rewrite (ord_nan_lt x y E) in H. discriminate.
  - apply orb_false_iff. auto.
Qed.
Lemma le_refl x : nnan x = false -> (x <=~ x) = true.
Proof. intro H. rewrite ord_total by auto. rewrite ord_irrefl. reflexivity. Qed.
Lemma lt_iff x y : (x <~ y) = true <-> nnan x = false /\ nnan y = false /\ (y <=~ x) = false.
Proof.
  split.
  - intro H. destruct (lt_nan _ _ H). rewrite ord_total by auto. rewrite H. auto.
  - intros (A & B & C). rewrite ord_total in C by auto. destruct (x <~ y); auto.
Qed.
Lemma lt_le x y : (x <~ y) = true -> (x <=~ y) = true.
Proof.
  intro H. apply lt_iff in H. destruct H as (A & B & C).
  pose proof (ord_le_total x y A B) as K. rewrite C, orb_false_r in K. auto.
Qed.
Lemma nlt_le x y : nnan x = false -> nnan y = false -> (x <~ y) = false -> (y <=~ x) = true.
Proof. intros A B C. rewrite ord_total, C; auto. Qed.
Lemma lt_asym x y : (x <~ y) = true -> (y <~ x) = false.
Proof.
  intro H. destruct (y <~ x) eqn:E; auto. apply lt_iff in E. apply lt_le in H.
  destruct E as (_ & _ & E). congruence.
Qed.
Lemma le_nlt x y : (x <=~ y) = true -> (y <~ x) = false.
Proof.
  intro H. destruct (le_nan _ _ H). rewrite ord_total in H by auto. destruct (y <~ x); auto.
Qed.
Lemma le_lt_trans x y z : (x <=~ y) = true -> (y <~ z) = true -> (x <~ z) = true.
Proof.
  intros H1 H2. apply lt_iff. destruct (le_nan _ _ H1), (lt_nan _ _ H2). repeat split; auto.
  destruct (z <=~ x) eqn:E; auto.
  assert ((z <=~ y) = true) by (eapply ord_le_trans; eauto).
  apply lt_iff in H2. destruct H2 as (_ & _ & H2). congruence.
Qed.
Lemma lt_le_trans x y z : (x <~ y) = true -> (y <=~ z) = true -> (x <~ z) = true.
Proof.
  intros H1 H2. apply lt_iff. destruct (lt_nan _ _ H1), (le_nan _ _ H2). repeat split; auto.
  destruct (z <=~ x) eqn:E; auto.
  assert ((y <=~ x) = true) by (eapply ord_le_trans; eauto).
  apply lt_iff in H1. destruct H1 as (_ & _ & H1). congruence.
Qed.
Lemma lt_trans x y z : (x <~ y) = true -> (y <~ z) = true -> (x <~ z) = true.
Proof. intros. eapply lt_le_trans; eauto using lt_le. Qed.

(** std::max(std::min(x, hi), lo). *)
Lemma clamp_in lo x hi : (lo <=~ hi) = true -> nnan x = false ->
  (lo <=~ nmax (nmin x hi) lo) = true /\ (nmax (nmin x hi) lo <=~ hi) = true.
Proof.
  intros L X. destruct (le_nan _ _ L). unfold nmax, nmin.
  destruct (hi <~ x) eqn:E1.
  - rewrite (le_nlt lo hi) by auto. split; auto using le_refl.
  - destruct (x <~ lo) eqn:E2; split; auto using le_refl, nlt_le.
Qed.
Lemma clamp_id lo x hi : (lo <=~ x) = true -> (x <=~ hi) = true -> nmax (nmin x hi) lo = x.
Proof. intros A B. unfold nmax, nmin. rewrite (le_nlt x hi), (le_nlt lo x); auto. Qed.
Lemma clamp_low lo x hi : (lo <=~ hi) = true -> (x <~ lo) = true -> nmax (nmin x hi) lo = lo.
Proof.
  intros L A. unfold nmax, nmin.
  rewrite (lt_asym x hi) by (eapply lt_le_trans; eauto). rewrite A. auto.
Qed.
Lemma clamp_high lo x hi : (lo <=~ hi) = true -> (hi <~ x) = true -> nmax (nmin x hi) lo = hi.
Proof. intros L A. unfold nmax, nmin. rewrite A, (le_nlt lo hi); auto. Qed.
End LAWS.
