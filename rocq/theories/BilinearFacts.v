(** * Facts about the bilinear interpolators *)
From Coq Require Import Floats Reals Lra Lia List Bool ZArith Psatz.
From Verif Require Import Num Ord Round Loops MsgQueue MathUtil Interp Spec_Interp InterpFacts.
Import ListNotations.
Local Open Scope nat_scope.

Section Cell.
  Context {T : Type} {N : Num T} {V : NumVal T}.

  Lemma search_up_spec (X : nat -> T) x m : no_nan m X -> nnan x = false -> (val x <= val (X (m - 1)%nat))%R ->
    forall cnt i, cnt = m - i -> i < m ->
    exists k, search_up X x cnt i = Some k /\ i <= k < m /\ (val x <= val (X k))%R /\
      (k = i \/ (val (X (k - 1)%nat) < val x)%R).
  Proof.
    intros NN Nx Hi. induction cnt as [|cnt IH]; intros i E L; [lia|]. cbn [search_up].
    rewrite val_le by (auto; apply NN; lia). destruct (Rleb_spec (val x) (val (X i))) as [A|A].
    - exists i. split; [reflexivity|]. split; [lia|]. split; [exact A | now left].
    - destruct (Nat.eq_dec i (m - 1)) as [->|D]; [contradiction|].
      destruct (IH (i + 1)) as (k & Ek & Lk & B & C); [lia | lia |].
      exists k. split; [exact Ek|]. split; [lia|]. split; [exact B|]. right.
      destruct C as [->|C]; [|exact C]. replace (i + 1 - 1) with i by lia. lra.
  Qed.

  Lemma search_down_spec (X : nat -> T) x m : no_nan m X -> nnan x = false -> (val (X 0%nat) <= val x)%R ->
    forall c, 0 < c -> c < m -> (val x < val (X c))%R ->
    exists k, search_down X x c = Some k /\ k < c /\ (val (X k) <= val x)%R /\ (val x < val (X (k + 1)%nat))%R.
  Proof.
    intros NN Nx Lo. induction c as [|c IH]; intros P L B; [lia|]. cbn [search_down].
    rewrite val_le by (auto; apply NN; lia). destruct (Rleb_spec (val (X c)) (val x)) as [A|A].
    - exists c. split; [reflexivity|]. split; [lia|]. split; [exact A|]. now replace (c + 1) with (S c) by lia.
    - destruct c as [|c]; [contradiction|].
      destruct (IH ltac:(lia) ltac:(lia)) as (k & Ek & Lk & C & D); [lra|].
      exists k. split; [exact Ek|]. split; [lia|]. auto.
  Qed.

  Lemma find_spec (X : nat -> T) m c x : ascending m X -> no_nan m X -> nnan x = false -> c + 1 < m ->
    (val (X 0%nat) <= val x)%R -> (val x <= val (X (m - 1)%nat))%R ->
    exists i, find_cell X m c x = Ret i /\ i + 1 < m /\ (val (X i) <= val x <= val (X (i + 1)%nat))%R.
  Proof.
    intros A NN Nx L Lo Hi. unfold find_cell. rewrite read_ok by lia. cbn [bindO].
    rewrite val_le by (auto; apply NN; lia). destruct (Rleb_spec (val (X (c + 1)%nat)) (val x)) as [H|H].
    - destruct (search_up_spec X x m NN Nx Hi (m - (c + 1)) (c + 1)) as (k & E & Lk & B & C); [lia | lia |].
      rewrite E. exists (k - 1). split; [reflexivity|]. split; [lia|]. replace (k - 1 + 1) with k by lia.
      split; [|exact B]. destruct C as [->|C]; [|lra]. replace (c + 1 - 1) with c by lia.
      specialize (A c L). lra.
    - rewrite read_ok by lia. cbn [bindO]. rewrite val_lt by (auto; apply NN; lia).
      destruct (Rltb_spec (val x) (val (X c))) as [K|K].
      + assert (0 < c) by (destruct c; [lra | lia]).
        destruct (search_down_spec X x m NN Nx Lo c) as (k & E & Lk & B & C); [lia | lia | exact K |].
        rewrite E. exists k. split; [reflexivity|]. split; [lia | lra].
      + exists c. split; [reflexivity|]. split; [exact L | lra].
  Qed.
End Cell.

(** ** Turning the table round *)
Section Turn.
  Context {T : Type} {N : Num T}.

  (** After [k] steps the outer [k] rows at either end are exchanged. *)
  Lemma turn_rows m n (x X0 : nat -> T) (Z : nat -> nat -> T) : forall k, k <= m / 2 ->
    let s := loop (turn_row m n x) 0 k (X0, Z) in
    forall i, i < m ->
      (i < k \/ m - k <= i -> fst s i = x (m - i - 1) /\ forall j, j < n -> snd s i j = Z (m - i - 1) j) /\
      (k <= i < m - k -> forall j, j < n -> snd s i j = Z i j).
  Proof.
    induction k as [|k IH]; intros Hk s i Hi.
    - split; [lia|]. intros _ j Hj. reflexivity.
    - assert (Hm : 2 * (m / 2) <= m) by (apply Nat.mul_div_le; lia).
      specialize (IH ltac:(lia)). cbv zeta in IH.
      subst s. rewrite loop_snoc. set (s := loop (turn_row m n x) 0 k (X0, Z)) in *.
      rewrite Nat.add_0_l. cbn [turn_row fst snd]. unfold set1. split.
      + intros H. destruct (IH i Hi) as (A & _). split.
        * destruct (Nat.eqb_spec i (m - k - 1)) as [E|E]; [replace (m - i - 1) with k by lia; reflexivity|].
          destruct (Nat.eqb_spec i k) as [->|F]; [reflexivity|]. apply A. lia.
        * intros j Hj. destruct (Nat.leb_spec n j) as [?|_]; [lia|].
          destruct (Nat.eqb_spec i k) as [->|F].
          -- destruct (IH (m - k - 1) ltac:(lia)) as (_ & B). apply B; lia.
          -- destruct (Nat.eqb_spec i (m - k - 1)) as [E|E].
             ++ destruct (IH k ltac:(lia)) as (_ & B). replace (m - i - 1) with k by lia. apply B; lia.
             ++ apply A; lia.
      + intros H j Hj. destruct (Nat.leb_spec n j) as [?|_]; [lia|].
        destruct (Nat.eqb_spec i k); [lia|]. destruct (Nat.eqb_spec i (m - k - 1)); [lia|].
        destruct (IH i Hi) as (_ & B). apply B; lia.
  Qed.

  (** The whole loop, for an odd number of rows. *)
  Lemma turn_rows_odd m n (x X0 : nat -> T) (Z : nat -> nat -> T) : Nat.odd m = true ->
    let s := loop (turn_row m n x) 0 (m / 2 + 1) (X0, Z) in
    forall i, i < m -> fst s i = x (m - i - 1) /\ forall j, j < n -> snd s i j = Z (m - i - 1) j.
  Proof.
    intros O s i Hi. apply Nat.odd_spec in O. destruct O as (h & O).
    assert (D : m / 2 = h) by (subst m; rewrite Nat.mul_comm, Nat.div_add_l by lia; change (1 / 2) with 0; lia).
    subst s. rewrite D. rewrite Nat.add_1_r, loop_snoc.
    pose proof (turn_rows m n x X0 Z h ltac:(lia)) as IH. cbv zeta in IH.
    set (s := loop (turn_row m n x) 0 h (X0, Z)) in *. rewrite Nat.add_0_l. cbn [turn_row fst snd]. unfold set1.
    destruct (IH i Hi) as (A & B). split.
    - destruct (Nat.eqb_spec i (m - h - 1)) as [E|E]; [f_equal; lia|].
      destruct (Nat.eqb_spec i h); [lia|]. apply A. lia.
    - intros j Hj. destruct (Nat.leb_spec n j) as [?|_]; [lia|].
      destruct (Nat.eqb_spec i h) as [->|F].
      + replace (m - h - 1) with h by lia. rewrite B by lia. f_equal; lia.
      + destruct (Nat.eqb_spec i (m - h - 1)); [lia|]. apply A; lia.
  Qed.

  (** For an even number of rows the two in the middle are exchanged twice. *)
  Lemma turn_rows_even m n (x X0 : nat -> T) (Z : nat -> nat -> T) : Nat.even m = true -> 2 <= m ->
    let s := loop (turn_row m n x) 0 (m / 2 + 1) (X0, Z) in
    forall i, i < m -> fst s i = x (m - i - 1) /\
      forall j, j < n -> snd s i j = if (i =? m / 2) || (i =? m / 2 - 1) then Z i j else Z (m - i - 1) j.
  Proof.
    intros O L s i Hi. apply Nat.even_spec in O. destruct O as (h & O).
    assert (D : m / 2 = h) by (subst m; rewrite Nat.mul_comm; apply Nat.div_mul; lia).
    subst s. rewrite D. rewrite Nat.add_1_r, loop_snoc.
    pose proof (turn_rows m n x X0 Z h ltac:(lia)) as IH. cbv zeta in IH.
    set (s := loop (turn_row m n x) 0 h (X0, Z)) in *. rewrite Nat.add_0_l. cbn [turn_row fst snd]. unfold set1.
    destruct (IH i Hi) as (A & _). split.
    - destruct (Nat.eqb_spec i (m - h - 1)) as [E|E]; [f_equal; lia|].
      destruct (Nat.eqb_spec i h) as [->|F]; [reflexivity|]. apply A. lia.
    - intros j Hj. destruct (Nat.leb_spec n j) as [?|_]; [lia|].
      destruct (Nat.eqb_spec i h) as [->|F]; cbn [orb].
      + destruct (IH (m - h - 1) ltac:(lia)) as (C & _). rewrite (proj2 (C ltac:(lia)) j Hj). f_equal; lia.
      + destruct (Nat.eqb_spec i (m - h - 1)) as [E|E].
        * destruct (Nat.eqb_spec i (h - 1)) as [_|?]; [|lia].
          destruct (IH h ltac:(lia)) as (C & _). rewrite (proj2 (C ltac:(lia)) j Hj). f_equal; lia.
        * destruct (Nat.eqb_spec i (h - 1)) as [?|_]; [lia|]. apply A; lia.
  Qed.

  (** Columns are rows of the transposed table. *)
  Definition flip (s : (nat -> T) * (nat -> nat -> T)) := (fst s, fun i j => snd s j i).

  Lemma turn_col_flip m n (y : nat -> T) i s :
    fst (turn_col m n y i s) = fst (turn_row n m y i (flip s)) /\
    forall r j, snd (turn_col m n y i s) r j = snd (turn_row n m y i (flip s)) j r.
  Proof. split; [reflexivity|]. intros r j. reflexivity. Qed.

  Lemma loop_flip m n (y : nat -> T) : forall k s i,
    loop (turn_col m n y) i k s = flip (loop (turn_row n m y) i k (flip s)).
  Proof.
    induction k as [|k IH]; intros s i; cbn [loop].
    - destruct s; reflexivity.
    - rewrite IH. reflexivity.
  Qed.
End Turn.

(** ** What initialisation stores *)
Section Store.
  Context {T : Type} {N : Num T} {V : NumVal T}.

  (** [Z'] is [Z] with the rows turned round, or with the rows as they are. *)
  Definition rows_as (m n : nat) (Z Z' : nat -> nat -> T) : Prop :=
    forall i j, i < m -> j < n -> Z' i j = Z i j.
  Definition rows_turned (m n : nat) (Z Z' : nat -> nat -> T) : Prop :=
    forall i j, i < m -> j < n -> Z' i j = Z (m - i - 1) j.
  Definition cols_turned (m n : nat) (Z Z' : nat -> nat -> T) : Prop :=
    forall i j, i < m -> j < n -> Z' i j = Z i (n - j - 1).

  (** Strictly monotone, with a length that the storing loop can turn round. *)
  Definition turnable (m : nat) (x : nat -> T) : Prop := ascending m x \/ (descending m x /\ Nat.odd m = true).

  Lemma store_x_spec m n (x X0 : nat -> T) Z : no_nan m x -> 2 <= m -> turnable m x ->
    let s := store_x m n x X0 Z in
    (ascending m x /\ (forall i, i < m -> fst s i = x i) /\ rows_as m n Z (snd s)) \/
    (descending m x /\ (forall i, i < m -> fst s i = x (m - i - 1)) /\ rows_turned m n Z (snd s)).
  Proof.
    intros NN L [A|(D & O)] s; subst s; unfold store_x; rewrite val_lt by (apply NN; lia).
    - left. specialize (A 0 ltac:(lia)) as A0. cbn in A0. rewrite Rltb_false by lra.
      split; [exact A|]. cbn [fst snd]. split; [reflexivity | intros i j _ _; reflexivity].
    - right. specialize (D 0 ltac:(lia)) as D0. cbn in D0. rewrite Rltb_true by lra.
      split; [exact D|]. split.
      + intros i Hi. now apply turn_rows_odd.
      + intros i j Hi Hj. now apply turn_rows_odd.
  Qed.

  Lemma store_y_spec m n (y Y0 : nat -> T) Z : no_nan n y -> 2 <= n -> turnable n y ->
    let s := store_y m n y Y0 Z in
    (ascending n y /\ (forall i, i < n -> fst s i = y i) /\ rows_as m n Z (snd s)) \/
    (descending n y /\ (forall i, i < n -> fst s i = y (n - i - 1)) /\ cols_turned m n Z (snd s)).
  Proof.
    intros NN L [A|(D & O)] s; subst s; unfold store_y; rewrite val_lt by (apply NN; lia).
    - left. specialize (A 0 ltac:(lia)) as A0. cbn in A0. rewrite Rltb_false by lra.
      split; [exact A|]. cbn [fst snd]. split; [reflexivity | intros i j _ _; reflexivity].
    - right. specialize (D 0 ltac:(lia)) as D0. cbn in D0. rewrite Rltb_true by lra.
      split; [exact D|]. rewrite loop_flip. cbn [flip fst snd]. split.
      + intros i Hi. now apply turn_rows_odd.
      + intros i j Hi Hj. pose proof (turn_rows_odd n m y Y0 (fun a b => Z b a) O j Hj) as (_ & B). now apply B.
  Qed.

  Definition bil_ok (o : Bil T) : Prop :=
    b_rows o = b_m o /\ ascending (b_m o) (b_x o) /\ no_nan (b_m o) (b_x o) /\
    ascending (b_n o) (b_y o) /\ no_nan (b_n o) (b_y o) /\
    b_i o + 1 < b_m o /\ b_j o + 1 < b_n o /\
    nnan (b_minx o) = false /\ nnan (b_maxx o) = false /\ nnan (b_miny o) = false /\ nnan (b_maxy o) = false /\
    (val (b_minx o) < val (b_maxx o))%R /\
    (val (b_x o 0%nat) <= val (b_minx o))%R /\ (val (b_maxx o) <= val (b_x o (b_m o - 1)%nat))%R.
  (** For the forward direction the second range is in the table as well. *)
  Definition bil_ok_y (o : Bil T) : Prop :=
    (val (b_miny o) < val (b_maxy o))%R /\
    (val (b_y o 0%nat) <= val (b_miny o))%R /\ (val (b_maxy o) <= val (b_y o (b_n o - 1)%nat))%R.

  (** What a successful initialisation has checked and stored, whatever the order. *)
  Lemma bil_init_inv junk o x y z m n lox hix loy hiy o' :
    bil_init junk o x y z m n lox hix loy hiy = Ret (o', true) ->
    let XZ := store_x m n x junk (fun i j => z (i * n + j)) in
    let YZ := store_y m n y junk (snd XZ) in
    2 <= m /\ 2 <= n /\ ordered m x = Ret true /\ ordered n y = Ret true /\
    (hix <=~ lox) = false /\ (hiy <=~ loy) = false /\
    (lox <~ fst XZ 0) = false /\ (fst XZ (m - 1) <~ hix) = false /\
    (loy <~ fst YZ 0) = false /\ (fst YZ (n - 1) <~ hiy) = false /\
    o' = mkBil m (fst XZ) (fst YZ) (snd YZ) m n 0 0 lox hix loy hiy false.
  Proof.
    intros E XZ YZ. unfold bil_init in E.
    destruct (hix <=~ lox) eqn:E1; [cbn [orb] in E; congruence|].
    destruct (hiy <=~ loy) eqn:E2; [cbn [orb] in E; congruence|]. cbn [orb] in E.
    destruct (Nat.ltb_spec m 2) as [?|Lm]; [cbn [orb] in E; congruence|].
    destruct (Nat.ltb_spec n 2) as [?|Ln]; [cbn [orb] in E; congruence|]. cbn [orb] in E.
    destruct (ordered m x) as [[|]| |] eqn:O1; cbn [bindO negb] in E; try congruence.
    destruct (ordered n y) as [[|]| |] eqn:O2; cbn [bindO negb] in E; try congruence.
    fold XZ in E. fold YZ in E. cbn [b_x b_y b_z b_rows b_m b_n] in E.
    unfold bil_cleanup in E. cbn [b_rows b_m] in E. rewrite Nat.ltb_irrefl in E. cbn [bindO] in E.
    destruct (lox <~ fst XZ 0) eqn:C1; [cbn [orb] in E; congruence|].
    destruct (fst XZ (m - 1) <~ hix) eqn:C2; [cbn [orb] in E; congruence|]. cbn [orb] in E.
    destruct (loy <~ fst YZ 0) eqn:C3; [cbn [orb] in E; congruence|].
    destruct (fst YZ (n - 1) <~ hiy) eqn:C4; [cbn [orb] in E; congruence|]. cbn [orb] in E.
    repeat split; auto. congruence.
  Qed.

  Lemma ordered_either n (x : nat -> T) : no_nan n x -> 2 <= n -> (n = 2 -> val (x 0) <> val (x 1)) ->
    ordered n x = Ret true -> ascending n x \/ descending n x.
  Proof.
    intros NN L N2 O. destruct (Nat.eq_dec n 2) as [->|D].
    - destruct (Rtotal_order (val (x 0)) (val (x 1))) as [H|[H|H]].
      + left. intros i Hi. replace i with 0 by lia. exact H.
      + now apply N2 in H.
      + right. intros i Hi. replace i with 0 by lia. exact H.
    - apply ordered_strict; auto. lia.
  Qed.

  (** The abscissas are stored right in any case. *)
  Lemma store_x_abscissa m n (x X0 : nat -> T) Z : no_nan m x -> 2 <= m ->
    ascending m x \/ descending m x ->
    let s := store_x m n x X0 Z in
    (ascending m x /\ (forall i, i < m -> fst s i = x i)) \/
    (descending m x /\ (forall i, i < m -> fst s i = x (m - i - 1))).
  Proof.
    intros NN L [A|D] s.
    - destruct (store_x_spec m n x X0 Z NN L (or_introl A)) as [(P & Q & _)|(P & Q & _)]; [left | right]; auto.
    - destruct (Nat.odd m) eqn:O.
      + destruct (store_x_spec m n x X0 Z NN L) as [(P & Q & _)|(P & Q & _)]; [now right | left | right]; auto.
      + right. split; [exact D|]. subst s. unfold store_x. rewrite val_lt by (apply NN; lia).
        specialize (D 0 ltac:(lia)) as D0. cbn in D0. rewrite Rltb_true by lra.
        intros i Hi. apply turn_rows_even; auto. rewrite <- Nat.negb_odd, O. reflexivity.
  Qed.

  Lemma store_y_abscissa m n (y Y0 : nat -> T) Z : no_nan n y -> 2 <= n ->
    ascending n y \/ descending n y ->
    let s := store_y m n y Y0 Z in
    (ascending n y /\ (forall i, i < n -> fst s i = y i)) \/
    (descending n y /\ (forall i, i < n -> fst s i = y (n - i - 1))).
  Proof.
    intros NN L A s. pose proof (store_x_abscissa n m y Y0 (fun a b => Z b a) NN L A) as H. cbv zeta in H.
    subst s. unfold store_y, store_x in *. destruct (y 1 <~ y 0); [|exact H]. rewrite loop_flip. exact H.
  Qed.

  Lemma same_asc n (X x : nat -> T) : (forall i, i < n -> X i = x i) -> ascending n x -> ascending n X.
  Proof. intros E A i Hi. rewrite !E by lia. now apply A. Qed.
  Lemma same_nan n (X x : nat -> T) : (forall i, i < n -> X i = x i) -> no_nan n x -> no_nan n X.
  Proof. intros E A i Hi. rewrite E by lia. now apply A. Qed.

  Lemma not_between (a lo hi b : T) : nnan a = false -> nnan lo = false -> nnan hi = false -> nnan b = false ->
    (hi <=~ lo) = false -> (lo <~ a) = false -> (b <~ hi) = false -> (val a < val b)%R.
  Proof.
    intros A B C D. rewrite val_le, !val_lt by assumption. intros X Y Z.
    destruct (Rleb_spec (val hi) (val lo)); [discriminate X|].
    destruct (Rltb_spec (val lo) (val a)); [discriminate Y|].
    destruct (Rltb_spec (val b) (val hi)); [discriminate Z | lra].
  Qed.

  (** The ends of an accepted table differ, so two points do. *)
  Lemma bil_init_two junk o x y z m n lox hix loy hiy o' :
    bil_init junk o x y z m n lox hix loy hiy = Ret (o', true) ->
    no_nan m x -> no_nan n y ->
    nnan lox = false -> nnan hix = false -> nnan loy = false -> nnan hiy = false ->
    (m = 2 -> val (x 0) <> val (x 1)) /\ (n = 2 -> val (y 0) <> val (y 1)).
  Proof.
    intros E Nx Ny N1 N2 N3 N4.
    destruct (bil_init_inv _ _ _ _ _ _ _ _ _ _ _ _ E) as (Lm & Ln & O1 & O2 & R1 & R2 & C1 & C2 & C3 & C4 & _).
    split.
    - intros -> Q. cbn [Nat.sub] in C2. 
      assert (F : fst (store_x 2 n x junk (fun i j => z (i * n + j))) = x).
      { unfold store_x. rewrite val_lt by (apply Nx; lia). now rewrite Rltb_false by lra. }
      rewrite F in C1, C2. pose proof (not_between (x 0) lox hix (x 1) (Nx 0 ltac:(lia)) N1 N2 (Nx 1 ltac:(lia)) R1 C1 C2). lra.
    - intros -> Q. cbn [Nat.sub] in C4. 
      set (W := snd (store_x m 2 x junk (fun i j => z (i * 2 + j)))) in *.
      assert (F : fst (store_y m 2 y junk W) = y).
      { unfold store_y. rewrite val_lt by (apply Ny; lia). now rewrite Rltb_false by lra. }
      rewrite F in C3, C4. pose proof (not_between (y 0) loy hiy (y 1) (Ny 0 ltac:(lia)) N3 N4 (Ny 1 ltac:(lia)) R2 C3 C4). lra.
  Qed.

  Lemma bil_init_ok junk o x y z m n lox hix loy hiy o' :
    bil_init junk o x y z m n lox hix loy hiy = Ret (o', true) ->
    no_nan m x -> no_nan n y ->
    nnan lox = false -> nnan hix = false -> nnan loy = false -> nnan hiy = false ->
    bil_ok o' /\ bil_ok_y o'.
  Proof.
    intros E Nx Ny N1 N2 N3 N4.
    assert (M2 : m = 2 -> val (x 0) <> val (x 1)) by (intros ->; now apply (bil_init_two _ _ _ _ _ _ _ _ _ _ _ _ E)).
    assert (K2 : n = 2 -> val (y 0) <> val (y 1)) by (intros ->; now apply (bil_init_two _ _ _ _ _ _ _ _ _ _ _ _ E)).
    destruct (bil_init_inv _ _ _ _ _ _ _ _ _ _ _ _ E) as (Lm & Ln & O1 & O2 & R1 & R2 & C1 & C2 & C3 & C4 & ->).
    set (XZ := store_x m n x junk (fun i j => z (i * n + j))) in *.
    set (YZ := store_y m n y junk (snd XZ)) in *.
    assert (HX : ascending m (fst XZ) /\ no_nan m (fst XZ)).
    { destruct (store_x_abscissa m n x junk (fun i j => z (i * n + j)) Nx Lm (ordered_either _ _ Nx Lm M2 O1))
        as [(A & B)|(A & B)]; fold XZ in B.
      - split; [eapply same_asc | eapply same_nan]; eauto.
      - split; [eapply same_asc | eapply same_nan]; [exact B | | exact B |]; auto using rev_asc, rev_nan. }
    assert (HY : ascending n (fst YZ) /\ no_nan n (fst YZ)).
    { destruct (store_y_abscissa m n y junk (snd XZ) Ny Ln (ordered_either _ _ Ny Ln K2 O2))
        as [(A & B)|(A & B)]; fold YZ in B.
      - split; [eapply same_asc | eapply same_nan]; eauto.
      - split; [eapply same_asc | eapply same_nan]; [exact B | | exact B |]; auto using rev_asc, rev_nan. }
    destruct HX as (HX & NX), HY as (HY & NY).
    rewrite val_le in R1, R2 by auto.
    rewrite val_lt in C1 by (auto; apply NX; lia). rewrite val_lt in C2 by (auto; apply NX; lia).
    rewrite val_lt in C3 by (auto; apply NY; lia). rewrite val_lt in C4 by (auto; apply NY; lia).
    destruct (Rleb_spec (val hix) (val lox)) as [?|R1']; [discriminate R1|].
    destruct (Rleb_spec (val hiy) (val loy)) as [?|R2']; [discriminate R2|].
    destruct (Rltb_spec (val lox) (val (fst XZ 0))) as [?|C1']; [discriminate C1|].
    destruct (Rltb_spec (val (fst XZ (m - 1))) (val hix)) as [?|C2']; [discriminate C2|].
    destruct (Rltb_spec (val loy) (val (fst YZ 0))) as [?|C3']; [discriminate C3|].
    destruct (Rltb_spec (val (fst YZ (n - 1))) (val hiy)) as [?|C4']; [discriminate C4|].
    clear R1 R2 C1 C2 C3 C4.
    unfold bil_ok, bil_ok_y. cbn [b_rows b_x b_y b_z b_m b_n b_i b_j b_minx b_maxx b_miny b_maxy].
    split; [|split; [|split]]; [|lra|lra|lra].
    do 7 (split; [auto; lia|]). do 4 (split; [assumption|]). split; [lra|]. split; lra.
  Qed.

  Lemma clip_in lo x hi a b : (lo < hi)%R -> (a <= lo)%R -> (hi <= b)%R -> (a <= clip lo x hi <= b)%R.
  Proof. intros. unfold clip, Rmax, Rmin. repeat destruct Rle_dec; lra. Qed.

  Lemma bil_get_ok o x y : bil_ok o -> bil_ok_y o -> nnan x = false -> nnan y = false ->
    let s := limit_range (b_minx o) x (b_maxx o) in
    let t := limit_range (b_miny o) y (b_maxy o) in
    exists i j, i + 1 < b_m o /\ j + 1 < b_n o /\
      (val (b_x o i) <= val s <= val (b_x o (i + 1)%nat))%R /\
      (val (b_y o j) <= val t <= val (b_y o (j + 1)%nat))%R /\
      bil_get o x y = Ret (bil_with_ij o i j, bil_formula (b_x o) (b_y o) (b_z o) i j s t).
  Proof.
    intros (R & AX & NX & AY & NY & Li & Lj & N1 & N2 & N3 & N4 & M & C1 & C2) (M' & C3 & C4) Nx Ny s t.
    destruct (limit_val (b_minx o) x (b_maxx o) N1 Nx N2) as (Ns & Vs). fold s in Ns, Vs.
    destruct (limit_val (b_miny o) y (b_maxy o) N3 Ny N4) as (Nt & Vt). fold t in Nt, Vt.
    pose proof (clip_in _ (val x) _ _ _ M C1 C2) as Bs. pose proof (clip_in _ (val y) _ _ _ M' C3 C4) as Bt.
    rewrite <- Vs in Bs. rewrite <- Vt in Bt.
    destruct (find_spec (b_x o) (b_m o) (b_i o) s AX NX Ns Li) as (i & Ei & Hi & Bi); [lra | lra |].
    destruct (find_spec (b_y o) (b_n o) (b_j o) t AY NY Nt Lj) as (j & Ej & Hj & Bj); [lra | lra |].
    exists i, j. do 4 (split; [assumption|]).
    unfold bil_get, bil_evaluate. fold s t. rewrite R, Nat.ltb_irrefl, Ei. cbn [bindO]. rewrite Ej. cbn [bindO].
    rewrite read2_ok by lia. cbn [bindO]. reflexivity.
  Qed.

  Lemma with_ij_ok o i j : bil_ok o -> i + 1 < b_m o -> j + 1 < b_n o -> bil_ok (bil_with_ij o i j).
  Proof.
    intros (R & AX & NX & AY & NY & Li & Lj & H) A B. unfold bil_ok, bil_with_ij. 
    cbn [b_rows b_x b_y b_z b_m b_n b_i b_j b_minx b_maxx b_miny b_maxy].
    do 7 (split; [assumption|]). exact H.
  Qed.
End Store.

(** ** Over the real numbers *)
Section Reals.
Local Open Scope R_scope.

Lemma patch_formula (m n : nat) (X Y : nat -> R) (Z : nat -> nat -> R) i j s t :
  ascending m X -> ascending n Y -> (i + 1 < m)%nat -> (j + 1 < n)%nat ->
  X i <= s <= X (i + 1)%nat -> Y j <= t <= Y (j + 1)%nat ->
  on_patch m n X Y Z s t (bil_formula X Y Z i j s t).
Proof.
  intros A B Hi Hj Bi Bj. specialize (A i Hi). specialize (B j Hj). cbn in A, B.
  exists (fun k => lin_formula X (fun r => Z r k) i s). split.
  - intros k Hk. exists i. split; [exact Hi|]. split; [rewrite Rmin_left, Rmax_right by lra; exact Bi|].
    now apply (formula_segment X (fun r => Z r k)).
  - exists j. split; [exact Hj|]. split; [rewrite Rmin_left, Rmax_right by lra; exact Bj|].
    unfold bil_formula, lin_formula. rnum. field. lra.
Qed.

Lemma on_patch_unique m n (x y : nat -> R) z s t v w : ascending m x \/ descending m x ->
  ascending n y \/ descending n y -> on_patch m n x y z s t v -> on_patch m n x y z s t w -> v = w.
Proof.
  intros A B (u & P & Q) (u' & P' & Q'). eapply on_segment_unique; [exact B | exact Q |].
  destruct Q' as (j & L & C & E). exists j. split; [exact L|]. split; [exact C|].
  assert (H : forall k, (k < n)%nat -> u k = u' k)
    by (intros k Hk; eapply on_segment_unique; [exact A | apply P, Hk | apply P', Hk]).
  rewrite !H by lia. exact E.
Qed.

Lemma on_segment_ext n (x x' z z' : nat -> R) t v : (forall i, (i < n)%nat -> x i = x' i) ->
  (forall i, (i < n)%nat -> z i = z' i) -> on_segment n x z t v -> on_segment n x' z' t v.
Proof.
  intros A B (i & L & C & E). exists i. rewrite <- !A, <- !B by lia. auto.
Qed.

(** The patches of a table and of what was stored for it are the same. *)
Lemma on_patch_x_rev m n (x X y : nat -> R) z Z s t v :
  (forall i, (i < m)%nat -> X i = x (m - i - 1)%nat) -> rows_turned m n z Z ->
  on_patch m n X y Z s t v -> on_patch m n x y z s t v.
Proof.
  intros A B (u & P & Q). exists u. split; [|exact Q]. intros j Hj. apply on_segment_rev.
  eapply on_segment_ext; [exact A | | apply P, Hj]. intros i Hi. now apply B.
Qed.
Lemma on_patch_y_rev m n (x y Y : nat -> R) z Z s t v :
  (forall i, (i < n)%nat -> Y i = y (n - i - 1)%nat) -> cols_turned m n z Z ->
  on_patch m n x Y Z s t v -> on_patch m n x y z s t v.
Proof.
  intros A B (u & P & Q). exists (fun j => u (n - j - 1)%nat). split.
  - intros j Hj. eapply on_segment_ext; [reflexivity | | apply P; lia]. intros i Hi. cbv beta.
    rewrite B by lia. f_equal. lia.
  - apply on_segment_rev. eapply on_segment_ext; [exact A | | exact Q].
    intros i Hi. cbv beta. f_equal. lia.
Qed.
Lemma on_patch_same m n (x X y Y : nat -> R) z Z s t v :
  (forall i, (i < m)%nat -> X i = x i) -> (forall i, (i < n)%nat -> Y i = y i) -> rows_as m n z Z ->
  on_patch m n X Y Z s t v -> on_patch m n x y z s t v.
Proof.
  intros A B C (u & P & Q). exists u. split; [|eapply on_segment_ext; [exact B | reflexivity | exact Q]].
  intros j Hj. eapply on_segment_ext; [exact A | | apply P, Hj]. intros i Hi. now apply C.
Qed.

(** The stored table answers for the table passed in. *)
Lemma stored_patch junk o (x y z : nat -> R) m n lox hix loy hiy o' s t v :
  bil_init junk o x y z m n lox hix loy hiy = Ret (o', true) -> turnable m x -> turnable n y ->
  on_patch m n (b_x o') (b_y o') (b_z o') s t v -> on_patch m n x y (fun i j => z (i * n + j)%nat) s t v.
Proof.
  intros E Tx Ty. destruct (bil_init_inv _ _ _ _ _ _ _ _ _ _ _ _ E) as (Lm & Ln & _ & _ & _ & _ & _ & _ & _ & _ & ->).
  cbn [b_x b_y b_z].
  set (XZ := store_x m n x junk (fun i j => z (i * n + j)%nat)).
  set (YZ := store_y m n y junk (snd XZ)). intro P.
  assert (Q : on_patch m n (fst XZ) y (snd XZ) s t v).
  { destruct (store_y_spec m n y junk (snd XZ) (R_no_nan _ _) Ln Ty) as [(_ & A & B)|(_ & A & B)]; fold YZ in A, B.
    - eapply on_patch_same; [reflexivity | exact A | exact B | exact P].
    - eapply on_patch_y_rev; [exact A | exact B | exact P]. }
  destruct (store_x_spec m n x junk (fun i j => z (i * n + j)%nat) (R_no_nan _ _) Lm Tx) as [(_ & A & B)|(_ & A & B)];
    fold XZ in A, B.
  - eapply on_patch_same; [exact A | reflexivity | exact B | exact Q].
  - eapply on_patch_x_rev; [exact A | exact B | exact Q].
Qed.
End Reals.

(** ** Even lengths *)
Section Even.
Local Open Scope R_scope.

Lemma limit_R (lo x hi : R) : limit_range lo x hi = clip lo x hi.
Proof. exact (proj2 (limit_val lo x hi (R_nan _) (R_nan _) (R_nan _))). Qed.
Lemma clip_id lo x hi : lo <= x <= hi -> clip lo x hi = x.
Proof. intro H. unfold clip. rewrite Rmin_left, Rmax_left; lra. Qed.

Lemma patch_point m n (x y : nat -> R) z i j : (2 <= m)%nat -> (2 <= n)%nat -> (i < m)%nat -> (j < n)%nat ->
  on_segment n y (fun k => z i k) (y j) (z i j).
Proof. intros. now apply (on_segment_point n y (fun k => z i k)). Qed.

(** A table with an even number of rows, given in descending order, answers for the
    row in the lower middle with the values of the row before it. *)
Lemma even_wrong junk o (x y z : nat -> R) m n lox hix loy hiy o' j :
  bil_init junk o x y z m n lox hix loy hiy = Ret (o', true) ->
  Nat.even m = true -> descending m x -> ascending n y -> (j < n)%nat ->
  lox <= x (m / 2)%nat <= hix -> loy <= y j <= hiy ->
  exists o'', bil_get o' (x (m / 2)%nat) (y j) = Ret (o'', z ((m / 2 - 1) * n + j)%nat).
Proof.
  intros E Ev Dx Ay Hj Rx Ry.
  destruct (bil_init_inv _ _ _ _ _ _ _ _ _ _ _ _ E) as (Lm & Ln & _ & _ & _ & _ & _ & _ & _ & _ & EO).
  assert (Ok : bil_ok o' /\ bil_ok_y o').
  { eapply bil_init_ok; [exact E | | | | | |]; try apply R_nan; apply R_no_nan. }
  destruct Ok as (Ok & OkY).
  destruct (bil_get_ok o' (x (m / 2)%nat) (y j) Ok OkY (R_nan _) (R_nan _)) as (a & b & La & Lb & Ba & Bb & G).
  exists (bil_with_ij o' a b). rewrite G. f_equal. f_equal.
  assert (LX : limit_range (b_minx o') (x (m / 2)%nat) (b_maxx o') = x (m / 2)%nat).
  { rewrite limit_R, EO. now apply clip_id. }
  assert (LY : limit_range (b_miny o') (y j) (b_maxy o') = y j).
  { rewrite limit_R, EO. now apply clip_id. }
  rewrite LX, LY in *.
  destruct Ok as (_ & AX & _ & AY & _). subst o'. cbn [b_m b_n b_x b_y b_z] in *.
  set (XZ := store_x m n x junk (fun i j => z (i * n + j)%nat)) in *.
  set (YZ := store_y m n y junk (snd XZ)) in *.
  assert (FY : fst YZ = y /\ snd YZ = snd XZ).
  { unfold YZ, store_y. specialize (Ay 0%nat ltac:(lia)). cbn in Ay. rnum. rewrite Rltb_false by lra.
    split; reflexivity. }
  destruct FY as (FY & SY). rewrite FY, SY in *.
  assert (FX : forall i, (i < m)%nat -> fst XZ i = x (m - i - 1)%nat /\ forall j, (j < n)%nat ->
    snd XZ i j = if ((i =? m / 2) || (i =? m / 2 - 1))%nat%bool then z (i * n + j)%nat else z ((m - i - 1) * n + j)%nat).
  { intros i Hi. unfold XZ, store_x. specialize (Dx 0%nat ltac:(lia)). cbn in Dx. rnum. rewrite Rltb_true by lra.
    apply (turn_rows_even m n x junk (fun i j => z (i * n + j)%nat) Ev Lm i Hi). }
  assert (Hm : (2 * (m / 2) = m)%nat).
  { apply Nat.even_spec in Ev. destruct Ev as (h & ->). rewrite (Nat.mul_comm 2 h), Nat.div_mul by lia. lia. }
  set (k := (m / 2 - 1)%nat).
  assert (Xk : fst XZ k = x (m / 2)%nat) by (rewrite (proj1 (FX k ltac:(lia))); f_equal; lia).
  assert (Zk : snd XZ k j = z (k * n + j)%nat).
  { rewrite (proj2 (FX k ltac:(lia)) j Hj). unfold k. rewrite Nat.eqb_refl, orb_true_r. reflexivity. }
  rewrite <- Zk, <- Xk in *.
  eapply on_patch_unique; [left; exact AX | left; exact AY | now apply patch_formula |].
  exists (snd XZ k). split.
  - intros j' Hj'. apply (on_segment_point m (fst XZ) (fun i => snd XZ i j') k); lia.
  - apply (on_segment_point n y (snd XZ k) j); lia.
Qed.
End Even.

(** ** The reverse interpolator *)
Section Reverse.
Local Open Scope R_scope.

Lemma scan_one_bounds (s : R * R) v :
  fst (scan_one s v) = Rmin (fst s) v /\
  (snd s <= snd (scan_one s v)) /\
  (fst s <= v -> v <= snd (scan_one s v)) /\
  (snd (scan_one s v) = snd s \/ snd (scan_one s v) = v).
Proof.
  unfold scan_one. rnum. destruct (Rltb_spec v (fst s)); cbn [fst snd].
  - rewrite Rmin_right by lra. repeat split; auto; lra.
  - rewrite Rmin_left by lra. destruct (Rltb_spec (snd s) v); cbn [fst snd]; repeat split; auto; lra.
Qed.

(** The elements before [(i, j)], row by row. *)
Definition before (i j a b : nat) : Prop := (a < i \/ a = i /\ b < j)%nat.

(** What the scan knows after the elements before [(i, j)] of rows of length [n]. *)
Definition scanned (n i j : nat) (Z : nat -> nat -> R) (s : R * R) : Prop :=
  (forall a b, (b < n)%nat -> before i j a b -> fst s <= Z a b /\ (Z a b <= snd s \/ Z a b <= Z 0%nat 0%nat)) /\
  (forall a b, (b < n)%nat -> before i j a b -> (0 < a + b)%nat -> Z 0%nat 0%nat <= Z a b -> Z 0%nat 0%nat <= snd s) /\
  (fst s = ndec 1 16 \/ exists a b, (b < n)%nat /\ before i j a b /\ fst s = Z a b) /\
  (snd s = nopp (ndec 1 16) \/ exists a b, (b < n)%nat /\ before i j a b /\ snd s = Z a b).

Lemma scanned_step n i j Z s : (j < n)%nat -> Z 0%nat 0%nat < ndec 1 16 ->
  scanned n i j Z s -> scanned n i (S j) Z (scan_one s (Z i j)).
Proof.
  intros Lj H0 (A & B & C & D). destruct (scan_one_bounds s (Z i j)) as (E & F & G & K).
  assert (Cases : forall a b, before i (S j) a b -> before i j a b \/ (a = i /\ b = j)) by (unfold before; lia).
  assert (Mono : forall a b, before i j a b -> before i (S j) a b) by (unfold before; lia).
  split; [|split; [|split]].
  - intros a b Lb Hb. rewrite E. destruct (Cases a b Hb) as [H|(-> & ->)].
    + destruct (A a b Lb H) as (P & Q). split; [eapply Rle_trans; [apply Rmin_l | exact P]|]. destruct Q; [left; lra | now right].
    + split; [apply Rmin_r|]. destruct (Rle_lt_dec (fst s) (Z i j)) as [L|L]; [left; auto|]. right.
      destruct i as [|i]; [destruct j as [|j]; [lra|]|].
      * destruct (A 0%nat 0%nat) as (P & _); [lia | unfold before; lia | lra].
      * destruct (A 0%nat 0%nat) as (P & _); [lia | unfold before; lia | lra].
  - intros a b Lb Hb Pos Ge. destruct (Cases a b Hb) as [H|(-> & ->)].
    + specialize (B a b Lb H Pos Ge). lra.
    + destruct (A 0%nat 0%nat) as (P & _); [lia | unfold before; lia |].
      specialize (G ltac:(lra)). lra.
  - rewrite E. unfold Rmin. destruct Rle_dec.
    + destruct C as [C|(a & b & Lb & H & C)]; [now left | right; exists a, b; auto].
    + right. exists i, j. repeat split; auto. unfold before. lia.
  - destruct K as [K|K]; rewrite K.
    + destruct D as [D|(a & b & Lb & H & D)]; [now left | right; exists a, b; auto].
    + right. exists i, j. repeat split; auto. unfold before. lia.
Qed.

Lemma scan_scanned m n Z : (0 < n)%nat -> Z 0%nat 0%nat < ndec 1 16 -> scanned n m 0 Z (scan m n Z).
Proof.
  intros Ln H0. unfold scan.
  apply (loop_inv (fun i s => scanned n i 0 Z s) (fun i s => loop (fun j s => scan_one s (Z i j)) 0 n s) m 0).
  - unfold scanned, before. repeat split; try lia; now left.
  - intros i s _ H. pose proof (loop_inv (fun j s => scanned n i j Z s) (fun j s => scan_one s (Z i j)) n 0 s H) as L.
    cbn [Nat.add] in L. specialize (L ltac:(intros j s' Lj; apply scanned_step; [lia | exact H0])).
    destruct L as (A & B & C & D).
    assert (Eq : forall a b, (b < n)%nat -> before (S i) 0 a b <-> before i n a b) by (unfold before; lia).
    split; [|split; [|split]].
    + intros a b Lb Hb. apply A; auto. now apply Eq.
    + intros a b Lb Hb. apply B; auto. now apply Eq.
    + destruct C as [C|(a & b & Lb & Hb & C)]; [now left | right; exists a, b; split; [exact Lb|]; split; [now apply Eq | exact C]].
    + destruct D as [D|(a & b & Lb & Hb & D)]; [now left | right; exists a, b; split; [exact Lb|]; split; [now apply Eq | exact D]].
Qed.

(** The walk over the cells.  [inside j] is for cells that contain [z]. *)
Section Walk.
  Variable o : Bil R.
  Variable i : nat.
  Variables frac z : R.
  Let W := mix (b_z o) i frac.
  Let n := b_n o.
  Definition inside (j : nat) : Prop := (j + 1 < n)%nat /\ Rmin (W j) (W (j + 1)) <= z <= Rmax (W j) (W (j + 1)).
  Definition found (r : nat * R) : Prop :=
    inside (fst r) /\ (W (fst r) <> W (fst r + 1)%nat ->
      snd r = b_y o (fst r) + (b_y o (fst r + 1)%nat - b_y o (fst r)) * (z - W (fst r)) / (W (fst r + 1)%nat - W (fst r))).

  Lemma is_between_spec a b : is_between a z b = true <-> Rmin a b <= z <= Rmax a b.
  Proof.
    unfold is_between, is_in_range. rnum. unfold Rmin, Rmax.
    destruct (Rleb_spec a b); repeat destruct Rle_dec; try lra; rewrite andb_true_iff;
    repeat (match goal with |- context [Rleb ?u ?v] => destruct (Rleb_spec u v) end); intuition (try discriminate; lra).
  Qed.

  Lemma found_here j : inside j -> found (j, if negb (W (j + 1)%nat ==~ W j)
      then b_y o j +~ (b_y o (j + 1) -~ b_y o j) *~ (z -~ W j) /~ (W (j + 1)%nat -~ W j)
      else ndec 5 (-1) *~ (b_y o j +~ b_y o (j + 1))).
  Proof.
    intro H. split; [exact H|]. cbn [fst snd]. intro D. rnum. rewrite Reqb_false by congruence. reflexivity.
  Qed.

  Lemma rev_up a : inside a -> forall cnt j d y, (j <= a)%nat -> (a - j < cnt)%nat ->
    found (rev_loop o i frac z cnt 1 j (W j) (W (j + 1)) d y).
  Proof.
    intros Ha. induction cnt as [|cnt IH]; intros j d y L C; [lia|]. cbn [rev_loop].
    destruct (is_between (W j) z (W (j + 1))) eqn:B.
    - apply found_here. split; [destruct Ha; lia | now apply is_between_spec].
    - assert (j <> a) by (intros ->; destruct Ha as (_ & Ha); apply is_between_spec in Ha; congruence).
      destruct (nabs (z -~ W (j + 1)) <~ d); destruct (nabs (z -~ W j) <~ _);
      cbn [Z.eqb Z.ltb Z.compare]; fold n;
      (destruct (Nat.ltb_spec (n - 2) (j + 1)) as [?|_]; [destruct Ha; lia|]); fold W;
      replace (W (j + 2)) with (W (j + 1 + 1)) by (f_equal; lia); apply IH; lia.
  Qed.

  Lemma rev_down a : inside a -> forall cnt j d y, (a <= j)%nat -> (j + 1 < n)%nat -> (j - a < cnt)%nat ->
    found (rev_loop o i frac z cnt (-1) j (W j) (W (j + 1)) d y).
  Proof.
    intros Ha. induction cnt as [|cnt IH]; intros j d y L Ln C; [lia|]. cbn [rev_loop].
    destruct (is_between (W j) z (W (j + 1))) eqn:B.
    - apply found_here. split; [exact Ln | now apply is_between_spec].
    - assert (j <> a) by (intros ->; destruct Ha as (_ & Ha); apply is_between_spec in Ha; congruence).
      destruct j as [|j]; [lia|].
      destruct (nabs (z -~ W (S j + 1)) <~ d); destruct (nabs (z -~ W (S j)) <~ _);
      cbn [Z.eqb Z.ltb Z.compare]; fold W;
      replace (W (S j)) with (W (j + 1)) by (f_equal; lia); apply IH; lia.
  Qed.

  Definition rising : Prop := forall j, (j + 1 < n)%nat -> W j < W (j + 1)%nat.
  Definition falling : Prop := forall j, (j + 1 < n)%nat -> W (j + 1)%nat < W j.

  Lemma rising_le : rising -> forall a b, (a <= b)%nat -> (b < n)%nat -> W a <= W b.
  Proof. intro H. exact (asc_le (T := R) n W H). Qed.
  Lemma falling_le : falling -> forall a b, (a <= b)%nat -> (b < n)%nat -> W b <= W a.
  Proof.
    intros H a b L. induction b as [|b IH]; intro Lb; [replace a with 0%nat by lia; lra|].
    destruct (Nat.eq_dec a (S b)) as [->|D]; [lra|].
    specialize (H b ltac:(lia)). replace (b + 1)%nat with (S b) in H by lia. specialize (IH ltac:(lia) ltac:(lia)). lra.
  Qed.

  Lemma rev_walk a j d y : rising \/ falling -> inside a -> (j + 1 < n)%nat ->
    found (rev_loop o i frac z (n - 1) 0 j (W j) (W (j + 1)) d y).
  Proof.
    intros M Ha Lj. destruct (n - 1)%nat as [|cnt] eqn:En; [lia|]. cbn [rev_loop].
    destruct (is_between (W j) z (W (j + 1))) eqn:B.
    - apply found_here. split; [exact Lj | now apply is_between_spec].
    - assert (D : j <> a) by (intros ->; destruct Ha as (_ & Ha); apply is_between_spec in Ha; congruence).
      assert (Dir : (nabs (z -~ W (j + 1)%nat) <~ nabs (z -~ W j)) = (j <? a)%nat).
      { assert (La : (a + 1 < n)%nat) by apply Ha. destruct Ha as (_ & Ha). rnum.
        destruct M as [M|M]; [pose proof (M a La); pose proof (M j Lj) | pose proof (M a La); pose proof (M j Lj)];
        [rewrite Rmin_left, Rmax_right in Ha by lra | rewrite Rmin_right, Rmax_left in Ha by lra];
        (destruct (Nat.ltb_spec j a) as [G|G];
          [ first [pose proof (rising_le M (j + 1) a ltac:(lia) ltac:(lia)) | pose proof (falling_le M (j + 1) a ltac:(lia) ltac:(lia))];
            apply Rltb_true
          | first [pose proof (rising_le M (a + 1) j ltac:(lia) ltac:(lia)) | pose proof (falling_le M (a + 1) j ltac:(lia) ltac:(lia))];
            apply Rltb_false ]);
        unfold Rabs; repeat destruct Rcase_abs; lra. }
      rewrite Dir. destruct (Nat.ltb_spec j a) as [G|G].
      + destruct (nabs (z -~ W (j + 1)) <~ d); destruct (nabs (z -~ W j) <~ _);
        cbn [Z.eqb Z.ltb Z.compare]; fold n;
        (destruct (Nat.ltb_spec (n - 2) (j + 1)) as [?|_]; [destruct Ha; lia|]); fold W;
        replace (W (j + 2)) with (W (j + 1 + 1)) by (f_equal; lia); apply (rev_up a); auto; destruct Ha; lia.
      + destruct j as [|j]; [lia|].
        destruct (nabs (z -~ W (S j + 1)) <~ d); destruct (nabs (z -~ W (S j)) <~ _);
        cbn [Z.eqb Z.ltb Z.compare]; fold W;
        replace (W (S j)) with (W (j + 1)) by (f_equal; lia); apply (rev_down a); auto; lia.
  Qed.
End Walk.
End Reverse.

Section Inverse.
Local Open Scope R_scope.

Lemma segment_range n (x z : nat -> R) t v lo hi : ascending n x \/ descending n x -> on_segment n x z t v ->
  (forall i, (i < n)%nat -> lo <= z i <= hi) -> lo <= v <= hi.
Proof.
  intros A S B. destruct (on_segment_between n x z t v A S) as (i & L & _ & C).
  pose proof (B i ltac:(lia)). pose proof (B (i + 1)%nat ltac:(lia)).
  unfold Rmin, Rmax in C. repeat destruct Rle_dec in C; lra.
Qed.

Lemma patch_range m n (x y : nat -> R) z s t v lo hi : ascending m x \/ descending m x ->
  ascending n y \/ descending n y -> on_patch m n x y z s t v ->
  (forall i j, (i < m)%nat -> (j < n)%nat -> lo <= z i j <= hi) -> lo <= v <= hi.
Proof.
  intros A B (u & P & Q) H. eapply segment_range; [exact B | exact Q |].
  intros j Hj. eapply segment_range; [exact A | apply P, Hj |]. cbv beta. intros i Hi. now apply H.
Qed.

(** Every row is strictly monotone, all of them in the same direction. *)
Definition monotone_rows (m n : nat) (z : nat -> nat -> R) : Prop :=
  (forall i j, (i < m)%nat -> (j + 1 < n)%nat -> z i j < z i (j + 1)%nat) \/
  (forall i j, (i < m)%nat -> (j + 1 < n)%nat -> z i (j + 1)%nat < z i j).

Lemma rev_get_ok (o : Bil R) x t v : bil_ok o -> monotone_rows (b_m o) (b_n o) (b_z o) ->
  on_patch (b_m o) (b_n o) (b_x o) (b_y o) (b_z o) (clip (b_minx o) x (b_maxx o)) t v ->
  b_miny o <= v <= b_maxy o ->
  exists i j, (i + 1 < b_m o)%nat /\ (j + 1 < b_n o)%nat /\ rev_get o x v = Ret (bil_with_ij o i j, t).
Proof.
  intros (R & AX & NX & AY & NY & Li & Lj & _ & _ & _ & _ & M & C1 & C2) Mo Pa Rv.
  unfold rev_get. rewrite !limit_R. rewrite (clip_id _ v) by exact Rv.
  set (s := clip (b_minx o) x (b_maxx o)) in *.
  pose proof (clip_in (b_minx o) x (b_maxx o) _ _ M C1 C2) as Bs. fold s in Bs. change (val s) with s in Bs.
  unfold rev_evaluate. rewrite R, Nat.ltb_irrefl.
  destruct (find_spec (b_x o) (b_m o) (b_i o) s AX NX (R_nan _) Li) as (i & Ei & Hi & Bi); [apply Bs | apply Bs |].
  change (val s) with s in Bi. change (val (b_x o i)) with (b_x o i) in Bi. change (val (b_x o (i + 1)%nat)) with (b_x o (i + 1)%nat) in Bi.
  rewrite Ei. cbn [bindO]. rewrite read2_ok by lia. cbn [bindO].
  set (frac := (s -~ b_x o i) /~ (b_x o (i + 1) -~ b_x o i)).
  pose proof (AX i Hi) as Gi. change (b_x o i < b_x o (i + 1)%nat) in Gi.
  assert (Fr : 0 <= frac <= 1 /\ frac * (b_x o (i + 1)%nat - b_x o i) = s - b_x o i).
  { unfold frac. rnum. split; [split|].
    - apply Rmult_le_pos; [lra|]. apply Rlt_le, Rinv_0_lt_compat. lra.
    - apply (Rmult_le_reg_r (b_x o (i + 1)%nat - b_x o i)); [lra|]. unfold Rdiv.
      rewrite Rmult_assoc, Rinv_l by lra. lra.
    - field. lra. }
  destruct Fr as (Fr & Fs).
  set (W := mix (b_z o) i frac).
  assert (SW : forall j, on_segment (b_m o) (b_x o) (fun r => b_z o r j) s (W j)).
  { intro j. exists i. split; [exact Hi|]. split; [rewrite Rmin_left, Rmax_right by lra; lra|].
    unfold W, mix. rnum. rewrite <- Fs. ring. }
  assert (SV : on_segment (b_n o) (b_y o) W t v).
  { destruct Pa as (u & P & Q). eapply on_segment_ext; [reflexivity | | exact Q].
    intros j Hj. eapply on_segment_unique; [left; exact AX | apply P, Hj | apply SW]. }
  assert (MW : rising o i frac \/ falling o i frac).
  { destruct Mo as [Mo|Mo]; [left | right]; intros j Hj; pose proof (Mo i j ltac:(lia) Hj);
    pose proof (Mo (i + 1)%nat j ltac:(lia) Hj); unfold mix; rnum.
    - assert (0 <= frac * (b_z o (i + 1)%nat (j + 1)%nat - b_z o (i + 1)%nat j)) by (apply Rmult_le_pos; lra).
      assert (0 <= (1 - frac) * (b_z o i (j + 1)%nat - b_z o i j)) by (apply Rmult_le_pos; lra).
      destruct (Rle_lt_dec frac 0); [replace frac with 0 in * by lra; lra|].
      assert (0 < frac * (b_z o (i + 1)%nat (j + 1)%nat - b_z o (i + 1)%nat j)) by (apply Rmult_lt_0_compat; lra).
      lra.
    - assert (0 <= frac * (b_z o (i + 1)%nat j - b_z o (i + 1)%nat (j + 1)%nat)) by (apply Rmult_le_pos; lra).
      assert (0 <= (1 - frac) * (b_z o i j - b_z o i (j + 1)%nat)) by (apply Rmult_le_pos; lra).
      destruct (Rle_lt_dec frac 0); [replace frac with 0 in * by lra; lra|].
      assert (0 < frac * (b_z o (i + 1)%nat j - b_z o (i + 1)%nat (j + 1)%nat)) by (apply Rmult_lt_0_compat; lra).
      lra. }
  assert (In : exists a, inside o i frac v a).
  { destruct (on_segment_between _ _ _ _ _ (or_introl AY) SV) as (a & La & _ & Ba). exists a. split; [exact La | exact Ba]. }
  destruct In as (a & In).
  pose proof (rev_walk o i frac v a (b_j o) (ndec 1 16) (b_y o (b_j o)) MW In Lj) as Fd.
  fold W in Fd |- *.
  destruct (rev_loop o i frac v (b_n o - 1) 0 (b_j o) (W (b_j o)) (W (b_j o + 1)%nat) (ndec 1 16) (b_y o (b_j o))) as (j' & y').
  destruct Fd as ((Lj' & Bj') & Fy). cbn [fst snd] in Lj', Bj', Fy. fold W in Bj', Fy.
  exists i, j'. split; [exact Hi|]. split; [exact Lj'|]. f_equal. f_equal.
  assert (Dj : W j' <> W (j' + 1)%nat) by (destruct MW as [H|H]; specialize (H j' Lj'); fold W in H; lra).
  specialize (Fy Dj).
  apply (on_segment_unique (b_n o) W (b_y o) v); [exact MW | |].
  - exists j'. split; [exact Lj'|]. split; [exact Bj'|]. rewrite Fy. field. lra.
  - destruct SV as (c & Lc & Bc & Ec). exists c. split; [exact Lc|].
    pose proof (AY c Lc) as Gc. change (b_y o c < b_y o (c + 1)%nat) in Gc.
    rewrite Rmin_left, Rmax_right in Bc by lra. split.
    + unfold Rmin, Rmax. repeat destruct Rle_dec; nra.
    + lra.
Qed.
End Inverse.
