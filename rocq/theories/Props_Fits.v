(** * The curve fits: what they compute, when they are initialised, where they are
      singular (C119, C120, C121) *)
From Coq Require Import Floats.
From Coq Require Import Reals Bool ZArith Lra Lia List Psatz.
From Verif Require Import Num Ord MathUtil Props_Math Fluid Fits Spec_Fits.
Open Scope R_scope.

(** ** Over any numbers: the initialised flag, C120 *)
Section FLAG.
Context {T : Type} {N : Num T}.
Variables (sq ex lg : T -> T) (pw : T -> T -> T).

(** Whatever happened to a fit before, after a call of init it reports that it is
    initialised if and only if that call returned. *)
Theorem C120_flag : forall k (o : fit T) (g : args T),
  is_initialized (fst (init sq ex lg pw k o g)) = negb (snd (init sq ex lg pw k o g)).
Proof.
  intros k o g. unfold init, base_init, is_initialized. destruct (yrange k g) as [lo hi].
  destruct (g_named g); cbn [negb snd fst]; [|reflexivity].
  destruct (g_maxx g <=~ g_minx g); [reflexivity|].
  destruct (hi <=~ lo); [reflexivity|].
  destruct k; cbv beta iota zeta; try reflexivity;
    match goal with |- context [if ?b then _ else _] => destruct b end; try reflexivity.
  match goal with |- context [if ?b then _ else _] => destruct b end; reflexivity.
Qed.

Theorem C120_constructors : forall k (g : args T) (o : fit T),
  ctor sq ex lg pw k g = Some o -> is_initialized o = true.
Proof.
  intros k g o. unfold ctor.
  set (s := match k with QuadraticRoot => _ | Tsat => _ | _ => _ end). clearbody s.
  pose proof (C120_flag k s g) as F. destruct (init sq ex lg pw k s g) as [o' e].
  cbn [fst snd] in F. destruct e; [discriminate|]. intro H; injection H as <-. exact F.
Qed.

Theorem C120_fresh : is_initialized (fresh : fit T) = false.
Proof. reflexivity. Qed.

(** A call of init that returns leaves the same curve whatever the fit was before,
    except for the fields its class does not have. *)
Theorem C120_again : forall k (o1 o2 : fit T) (g : args T),
  k <> QuadraticRoot ->
  snd (init sq ex lg pw k o1 g) = snd (init sq ex lg pw k o2 g).
Proof.
  intros k o1 o2 g K. unfold init, base_init. destruct (yrange k g) as [lo hi].
  destruct (g_named g); cbn [negb snd fst]; [|reflexivity].
  destruct (g_maxx g <=~ g_minx g); [reflexivity|].
  destruct (hi <=~ lo); [reflexivity|].
  destruct k; try congruence; cbv beta iota zeta; try reflexivity;
    cbn [f_minx f_maxx f_a f_b f_c f_d f_e f_f set_coefs evaluate];
    match goal with |- context [if ?b then _ else _] => destruct b end; try reflexivity.
  unfold evaluate. cbn [f_minx f_maxx f_a f_b f_c f_d f_e f_f set_coefs].
  match goal with |- context [if ?b then _ else _] => destruct b end; reflexivity.
Qed.
End FLAG.
Print Assumptions C120_flag.
Print Assumptions C120_constructors.
Print Assumptions C120_again.

(** The fit of quadratic roots looks at what it was before: a second init with the
    arguments of a fit that can be constructed throws (C120). *)
Definition rootF (a b lo hi : float) : args float :=
  mkargs true lo hi 0%float 0%float a b 0%float 0%float 0%float 0%float.
Definition noF (x : float) : float := x.
Definition noF2 (x _ : float) : float := x.
Definition okF (k : kind) (g : args float) : option (fit float) :=
  ctor PrimFloat.sqrt noF noF noF2 k g.
Definition initF (k : kind) (o : fit float) (g : args float) : fit float * bool :=
  init PrimFloat.sqrt noF noF noF2 k o g.
Theorem C120_again_refuted : exists (g1 g2 : args float) (o1 : fit float),
  okF QuadraticRoot g1 = Some o1 /\ okF QuadraticRoot g2 <> None /\
  snd (initF QuadraticRoot o1 g2) = true.
Proof.
  exists (rootF 4 1 0 10)%float, (rootF 8 1 (-10) 10)%float.
  match goal with |- exists o, ?l = _ /\ _ =>
    let F := eval vm_compute in l in match F with Some ?F => exists F end end.
  split; [vm_compute; reflexivity|]. split; vm_compute; [discriminate|reflexivity].
Qed.
Print Assumptions C120_again_refuted.

(** ** Over the reals *)
Definition initR (pw : R -> R -> R) (k : kind) (o : fit R) (g : args R) := init sqrt exp log10 pw k o g.
Definition getR (pw : R -> R -> R) (k : kind) (o : fit R) (x y : R) := get sqrt exp log10 pw k o x y.
Definition excR (pw : R -> R -> R) (k : kind) (o : fit R) (x y : R) :=
  get_exceptional sqrt exp log10 pw k o x y.

Lemma flt23 : (flt_eps : R) = / IZR (2 ^ 23).
Proof.
  unfold flt_eps. rnum. unfold Reps, Rdec. change (2 ^ 52)%Z with (2 ^ 23 * 536870912)%Z.
  rewrite mult_IZR. field. apply IZR_neq; discriminate.
Qed.
Lemma p23_pos : 0 < / IZR (2 ^ 23).
Proof. apply Rinv_0_lt_compat, IZR_lt. reflexivity. Qed.
Lemma into_R (lo x hi : R) : lo < hi -> limit_range lo x hi = into lo x hi.
Proof. intro H. unfold limit_range, nmax, nmin, into, Rmax, Rmin. rnum.
  repeat (rcases1 || destruct Rle_dec); try lra. Qed.
Lemma into_in (lo x hi : R) : lo < hi -> lo <= into lo x hi <= hi.
Proof. intros H. unfold into, Rmax, Rmin. repeat destruct Rle_dec; lra. Qed.
Lemma into_id (lo x hi : R) : inside lo x hi -> into lo x hi = x.
Proof. unfold inside, into, Rmax, Rmin. intros. repeat destruct Rle_dec; lra. Qed.

(** What an accepted init leaves. *)
Definition stored (k : kind) (g : args R) (o : fit R) : Prop :=
  f_minx o = g_minx g /\ f_maxx o = g_maxx g /\
  f_miny o = fst (yrange k g) /\ f_maxy o = snd (yrange k g) /\
  match k with
  | QuadraticRoot => f_a o = - g_a g /\ f_b o = g_a g * g_a g /\ f_c o = 4 * g_b g /\ f_d o = 5 / 10 / g_b g
  | Tsat => f_a o = g_a g /\ f_b o = - g_b g /\ f_c o = g_b g * g_b g /\ f_d o = 4 * g_c g /\
            f_e o = 5 / 10 / g_c g
  | _ => f_a o = g_a g /\ f_b o = g_b g /\ f_c o = g_c g /\ f_d o = g_d g /\ f_e o = g_e g /\ f_f o = g_f g
  end.
Lemma yrange_lt k (g : args R) : two_vars k = false -> fst (yrange k g) < 0 < snd (yrange k g).
Proof.
  pose proof Reps_pos as E. pose proof p23_pos as F.
  destruct k; intro H; try discriminate H; cbn [yrange fst snd]; rewrite ?flt23;
    cbn [nopp neps RNum]; lra.
Qed.
Lemma yrange_two k (g : args R) : two_vars k = true -> yrange k g = (g_miny g, g_maxy g).
Proof. destruct k; intro H; try discriminate H; reflexivity. Qed.

(** The checks of the class that an accepted fit has passed. *)
Definition passed (k : kind) (o : fit R) (g : args R) : Prop :=
  match k with
  | Quotient => / IZR (2 ^ 23) <= g_minx g \/ g_maxx g <= - / IZR (2 ^ 23)
  | Exponential | InvLinear | InvQuadratic | Showmate => Reps <= g_minx g \/ g_maxx g <= - Reps
  | Hvap => Rabs (g_b g) <= 50 /\ Rabs (g_c g) <= 50
  | QuadraticRoot => Reps <= Rabs (g_b g)
  | Tsat => Reps <= Rabs (g_c g)
  | _ => True
  end.
Lemma init_done pw k (o o' : fit R) (g : args R) :
  initR pw k o g = (o', false) -> proper k g /\ passed k o g /\ stored k g o'.
Proof.
  unfold initR, init, base_init. destruct (yrange k g) as [lo hi] eqn:Y.
  destruct (g_named g) eqn:NM; cbn [negb]; [|discriminate].
  cbn [nle RNum]. destruct (Rleb_spec (g_maxx g) (g_minx g)) as [|LX]; [discriminate|].
  destruct (Rleb_spec hi lo) as [|LY]; [discriminate|]. apply Rnot_le_lt in LX, LY.
  assert (PR : proper k g).
  { split; [exact NM|]. split; [exact LX|]. intro W. rewrite (yrange_two k g W) in Y.
    now injection Y as -> ->. }
  intro H. split; [exact PR|]. clear PR.
  unfold stored. rewrite Y. cbn [fst snd].
  destruct k; cbv beta iota zeta in H; cbn [passed];
    try (injection H as <-; cbn; tauto).
  1: { destruct (_ || _) eqn:E in H; [discriminate|]. injection H as <-. cbn.
       rnum. change (Rdec 50 0) with 50 in E.
       destruct (Rltb_spec 50 (Rabs (g_b g))); [discriminate|].
       destruct (Rltb_spec 50 (Rabs (g_c g))); [discriminate|]. repeat split; lra. }
  1: { destruct (zero_check _ _ _) eqn:E in H; [discriminate|]. injection H as <-. cbn. split; [|tauto].
       unfold zero_check in E. rewrite flt23 in E. cbn [nlt nopp RNum f_minx f_maxx] in E.
       destruct (Rltb_spec (g_minx g) (/ IZR (2 ^ 23))); [|left; lra].
       destruct (Rltb_spec (- / IZR (2 ^ 23)) (g_maxx g)); [discriminate|right; lra]. }
  1-4: destruct (zero_check _ _ _) eqn:E in H; [discriminate|]; injection H as <-; cbn; split; [|tauto];
       unfold zero_check in E; cbn [nlt nopp neps RNum f_minx f_maxx] in E;
       destruct (Rltb_spec (g_minx g) Reps); [|left; lra];
       destruct (Rltb_spec (- Reps) (g_maxx g)); [discriminate|right; lra].
  1,3: destruct (roots_check _ _ _ _ _ _) in H; [discriminate|]; injection H as <-; cbn; tauto.
  1: destruct (_ && _) in H; [discriminate|]; injection H as <-; cbn; tauto.
  1: { destruct (_ || _) eqn:E in H; [discriminate|]. injection H as <-.
       cbn [f_minx f_maxx f_miny f_maxy f_a f_b f_c f_d f_e f_f set_coefs set_flag].
       apply orb_false_elim in E as [E _]. cbn [nlt nabs neps RNum] in E.
       destruct (Rltb_spec (Rabs (g_b g)) Reps); [discriminate|]. rnum.
       unfold Rdec. repeat split; try reflexivity; lra. }
  cbn [nlt nabs neps RNum] in H.
  destruct (Rltb_spec (Rabs (g_c g)) Reps); [discriminate|].
  match type of H with (if ?b then _ else _) = _ => destruct b; [discriminate|] end.
  injection H as <-.
  cbn [f_minx f_maxx f_miny f_maxy f_a f_b f_c f_d f_e f_f set_coefs set_flag].
  rnum. unfold Rdec. repeat split; try reflexivity; lra.
Qed.
Lemma nz_abs (x : R) : Reps <= Rabs x -> x <> 0.
Proof. intros H ->. rewrite Rabs_R0 in H. pose proof Reps_pos. lra. Qed.

(** The curve itself, at a point that is no singularity of the ones that must be
    known to be absent. *)
Lemma evaluate_formula pw k (o o' : fit R) (g : args R) x y :
  stored k g o' -> passed k o g -> (zero_only k <> None -> x <> 0) ->
  evaluate sqrt exp log10 pw k o' x y = formula pw k g x y.
Proof.
  intros (_ & _ & _ & _ & S) P Z. unfold evaluate, formula.
  destruct k; cbn [passed zero_only] in P, Z;
    repeat match goal with H : _ /\ _ |- _ => destruct H end;
    repeat match goal with H : f_a _ = _ |- _ => rewrite H; clear H
      | H : f_b _ = _ |- _ => rewrite H; clear H | H : f_c _ = _ |- _ => rewrite H; clear H
      | H : f_d _ = _ |- _ => rewrite H; clear H | H : f_e _ = _ |- _ => rewrite H; clear H
      | H : f_f _ = _ |- _ => rewrite H; clear H end;
    rnum; unfold Rdec; try ring.
  - replace (- g_b g * x) with (- (g_b g * x)) by ring. reflexivity.
  - f_equal. field. apply Z; discriminate.
  - field. apply Z; discriminate.
  - change (10 ^ 3)%Z with 1000%Z. field. apply Z; discriminate.
  - replace (1 + g_c g * x + g_d g * x ^ 2) with (1 + (g_c g + g_d g * x) * x) by ring. reflexivity.
  - replace (x ^ 3) with (x * x * x) by ring. reflexivity.
  - f_equal; ring.
  - replace (g_a g ^ 2 + 4 * g_b g * x) with (g_a g * g_a g + 4 * g_b g * x) by ring.
    field. now apply nz_abs.
  - replace (g_b g ^ 2 - 4 * g_c g * (g_a g - log10 x))
      with (g_b g * g_b g - 4 * g_c g * (g_a g - log10 x)) by ring.
    field. now apply nz_abs.
Qed.
Lemma away k (o : fit R) (g : args R) x :
  proper k g -> passed k o g -> inside (g_minx g) x (g_maxx g) -> zero_only k <> None -> x <> 0.
Proof.
  intros (_ & L & _) P [I1 I2] Z E. subst x. pose proof Reps_pos. pose proof p23_pos.
  destruct k; cbn [passed zero_only] in P, Z; try congruence; destruct P; lra.
Qed.
Lemma ignores_y pw k (g : args R) x y y' :
  two_vars k = false -> formula pw k g x y = formula pw k g x y'.
Proof. destruct k; intro H; try discriminate H; reflexivity. Qed.

(** ** C119: an initialised fit gives its curve at the arguments limited to its range *)
Theorem C119_get : forall pw k (o o' : fit R) (g : args R),
  initR pw k o g = (o', false) -> forall x y : R,
  getR pw k o' x y
  = formula pw k g (into (g_minx g) x (g_maxx g))
      (if two_vars k then into (g_miny g) y (g_maxy g) else y).
Proof.
  intros pw k o o' g H x y. destruct (init_done pw k o o' g H) as (PR & PA & ST).
  pose proof ST as (S1 & S2 & S3 & S4 & _). pose proof PR as (_ & L & _).
  unfold getR, get. rewrite S1, S2, S3, S4, (into_R (g_minx g)) by exact L.
  rewrite (evaluate_formula pw k o o' g _ _ ST PA).
  - destruct (two_vars k) eqn:W.
    + rewrite (yrange_two k g W). cbn [fst snd]. rewrite into_R; [reflexivity|].
      now apply PR.
    + now apply ignores_y.
  - intro Z. apply (away k o g); auto. now apply into_in.
Qed.
Print Assumptions C119_get.

(** The throwing access: inside the ranges the curve, outside an exception. *)
Theorem C119_exceptional : forall pw k (o o' : fit R) (g : args R),
  initR pw k o g = (o', false) -> forall x y : R,
  (inside (g_minx g) x (g_maxx g) -> (two_vars k = true -> inside (g_miny g) y (g_maxy g)) ->
   (two_vars k = false -> y = 0) -> excR pw k o' x y = Some (formula pw k g x y)) /\
  (~ inside (g_minx g) x (g_maxx g) -> excR pw k o' x y = None) /\
  (two_vars k = true -> ~ inside (g_miny g) y (g_maxy g) -> excR pw k o' x y = None).
Proof.
  intros pw k o o' g H x y. destruct (init_done pw k o o' g H) as (PR & PA & ST).
  pose proof ST as (S1 & S2 & S3 & S4 & _). destruct PR as (NM & L & L2).
  assert (PR : proper k g) by (unfold proper; auto).
  unfold excR, get_exceptional. rewrite S1, S2, S3, S4. cbn [nlt RNum].
  split; [|split].
  - intros IX IY1 IY2. pose proof IX as [I1 I2].
    rewrite (proj2 (orb_false_iff _ _)); [|split; apply Rltb_false; auto].
    assert (IY : inside (fst (yrange k g)) y (snd (yrange k g))).
    { destruct (two_vars k) eqn:W.
      - rewrite (yrange_two k g W). auto.
      - rewrite IY2 by reflexivity. pose proof (yrange_lt k g W). unfold inside; lra. }
    rewrite (proj2 (orb_false_iff _ _)); [|split; apply Rltb_false; apply IY].
    f_equal. apply (evaluate_formula pw k o o' g _ _ ST PA). intro Z. now apply (away k o g).
  - intro NI. destruct (Rltb_spec x (g_minx g)); [reflexivity|].
    destruct (Rltb_spec (g_maxx g) x); [reflexivity|]. exfalso; apply NI; unfold inside; lra.
  - intros W NI. rewrite (yrange_two k g W). cbn [fst snd].
    destruct (_ || _); [reflexivity|].
    destruct (Rltb_spec y (g_miny g)); [reflexivity|].
    destruct (Rltb_spec (g_maxy g) y); [reflexivity|]. exfalso; apply NI; unfold inside; lra.
Qed.
Print Assumptions C119_exceptional.

(** ** C121: no singularity in the range of an accepted fit *)

(** A fit whose only singularity can be at 0 is accepted exactly if the range stays away
    from 0, a fit that has none if the range is proper. *)
Theorem C121_accepts : forall pw k (o : fit R) (g : args R),
  (forall eps, zero_only k = Some eps ->
     (snd (initR pw k o g) = false <->
      proper k g /\ (eps <= g_minx g \/ g_maxx g <= - eps))) /\
  (smooth k = true -> k <> Hvap -> (snd (initR pw k o g) = false <-> proper k g)) /\
  (k = Hvap -> (snd (initR pw k o g) = false <->
                proper k g /\ Rabs (g_b g) <= 50 /\ Rabs (g_c g) <= 50)).
Proof.
  intros pw k o g.
  assert (BASE : proper k g -> snd (base_init o (g_named g) (g_minx g) (g_maxx g)
                                   (fst (yrange k g)) (snd (yrange k g))) = false).
  { intros (NM & L & L2). unfold base_init. rewrite NM. cbn [negb nle RNum].
    rewrite Rleb_false by exact L.
    rewrite Rleb_false; [reflexivity|]. destruct (two_vars k) eqn:W.
    - rewrite (yrange_two k g W). now apply L2.
    - pose proof (yrange_lt k g W). lra. }
  assert (FW : snd (initR pw k o g) = false -> proper k g /\ passed k o g).
  { intro S. destruct (initR pw k o g) as [o' e] eqn:I. cbn in S; subst e.
    destruct (init_done pw k o o' g I) as (A & B & _); auto. }
  assert (BX : forall o', proper k g -> base_init o (g_named g) (g_minx g) (g_maxx g)
                 (fst (yrange k g)) (snd (yrange k g)) = o' ->
               f_minx (fst o') = g_minx g /\ f_maxx (fst o') = g_maxx g /\ snd o' = false).
  { intros o' PR <-. pose proof (BASE PR) as B. revert B. unfold base_init.
    destruct (negb _); [discriminate|]. destruct (g_maxx g <=~ g_minx g); [discriminate|].
    destruct (_ <=~ _); [discriminate|]. auto. }
  assert (BW : proper k g -> passed k o g -> smooth k = true \/ zero_only k <> None ->
               snd (initR pw k o g) = false).
  { intros PR PA SZ. unfold initR, init.
    destruct (yrange k g) as [lo hi] eqn:Y. cbn [fst snd] in *.
    destruct (base_init _ _ _ _ lo hi) as [o1 e] eqn:B.
    destruct (BX _ PR eq_refl) as (X1 & X2 & X3). cbn [fst snd] in *. subst e.
    pose proof Reps_pos. pose proof p23_pos.
    destruct k; cbv beta iota zeta; cbn [passed smooth zero_only] in PA, SZ; try reflexivity;
      try (exfalso; now destruct SZ as [SZ | SZ]);
      try (unfold zero_check; rewrite X1, X2, ?flt23; cbn [nlt nopp neps RNum];
           destruct PA as [PA | PA];
           [rewrite (Rltb_false (g_minx g)) by lra; reflexivity
           |rewrite (Rltb_false _ (g_maxx g)) by lra; rewrite andb_false_r; reflexivity]).
    rnum. change (Rdec 50 0) with 50.
    destruct PA. rewrite !Rltb_false by lra. reflexivity. }
  split; [|split].
  - intros eps Z. split.
    + intro S. destruct (FW S) as [PR PA]. split; [exact PR|].
      destruct k; cbn [zero_only] in Z; try discriminate Z; injection Z as <-; exact PA.
    + intros [PR PA]. apply BW; auto; [|right; congruence].
      destruct k; cbn [zero_only] in Z; try discriminate Z; injection Z as <-; exact PA.
  - intros S K. split; [intro W; now apply FW|]. intro PR. apply BW; auto.
    destruct k; try discriminate S; try exact I. congruence.
  - intros ->. split.
    + intro S. apply FW in S. tauto.
    + intros (PR & PA). apply BW; auto.
Qed.
Print Assumptions C121_accepts.

(** Such a fit divides by nothing that is 0, wherever it is asked. *)
Theorem C121_regular : forall pw k (o o' : fit R) (g : args R),
  initR pw k o g = (o', false) ->
  smooth k = true \/ zero_only k <> None \/ k = QuadraticRoot \/ k = Tsat ->
  forall x, divisor k g (into (g_minx g) x (g_maxx g)) <> 0.
Proof.
  intros pw k o o' g H C x. destruct (init_done pw k o o' g H) as (PR & PA & _).
  pose proof PR as (_ & L & _).
  destruct k; cbn [divisor smooth zero_only passed] in *;
    try lra; try (apply (away _ o g _ PR PA); [now apply into_in|discriminate]);
    try (exfalso; now destruct C as [C | [C | [C | C]]]).
  - apply nz_abs in PA. lra.
  - apply nz_abs in PA. lra.
Qed.
Print Assumptions C121_regular.

(** The same in binary64: the x an accepted fit divides by is not 0. *)
Definition zeroish (k : kind) : bool :=
  match k with Quotient | Exponential | InvLinear | InvQuadratic | Showmate => true | _ => false end.
Theorem C121_regular_binary64 : forall k (o o' : fit float) (g : args float) (x : float),
  initF k o g = (o', false) -> zeroish k = true ->
  nnan (g_minx g) = false -> nnan (g_maxx g) = false -> nnan x = false ->
  (limit_range (f_minx o') x (f_maxx o') ==~ n0) = false /\
  (g_minx g <=~ limit_range (f_minx o') x (f_maxx o')) = true /\
  (limit_range (f_minx o') x (f_maxx o') <=~ g_maxx g) = true.
Proof.
  intros k o o' g x H Z N1 N2 NX.
  assert (C : exists eps, (n0 <~ eps) = true /\ nnan eps = false /\
    f_minx o' = g_minx g /\ f_maxx o' = g_maxx g /\ (g_maxx g <=~ g_minx g) = false /\
    zero_check eps (g_minx g) (g_maxx g) = false).
  { unfold initF, init, base_init in H. destruct (yrange k g) as [lo hi].
    destruct (negb (g_named g)); [discriminate|].
    destruct (g_maxx g <=~ g_minx g) eqn:L; [discriminate|].
    destruct (hi <=~ lo); [discriminate|].
    destruct k; try discriminate Z; cbv beta iota zeta in H; cbn [f_minx f_maxx] in H;
      destruct (zero_check _ _ _) eqn:E in H; try discriminate H; injection H as <-.
    - exists flt_eps. repeat split; auto.
    - exists neps. repeat split; auto.
    - exists neps. repeat split; auto.
    - exists neps. repeat split; auto.
    - exists neps. repeat split; auto. }
  destruct C as (eps & E0 & EN & -> & -> & L & CK).
  assert (LL : (g_minx g <=~ g_maxx g) = true).
  { pose proof (ord_le_total _ _ N1 N2) as W. rewrite L, orb_false_r in W. exact W. }
  destruct (C36_limit_range_in_range _ _ _ LL NX) as [A B].
  split; [|split; auto]. set (v := limit_range _ _ _) in *. clearbody v.
  destruct (v ==~ n0) eqn:V; [exfalso|reflexivity].
  rewrite ord_le_antisym in V. apply andb_prop in V as [V1 V2].
  unfold zero_check in CK. apply andb_false_elim in CK as [CK | CK].
  - assert (W : (eps <=~ g_minx g) = true) by (rewrite ord_total by auto; now rewrite CK).
    pose proof (ord_le_trans _ _ _ W (ord_le_trans _ _ _ A V1)) as Q.
    rewrite ord_total in Q by (auto; apply ord_0). rewrite E0 in Q. discriminate.
  - assert (W : (g_maxx g <=~ nopp eps) = true).
    { rewrite ord_total by (auto; rewrite ord_opp_nan; auto). now rewrite CK. }
    pose proof (ord_le_trans _ _ _ V2 (ord_le_trans _ _ _ B W)) as Q.
    assert (Q2 : (nopp n0 <=~ nopp eps) = true).
    { eapply ord_le_trans; [|exact Q]. pose proof (ord_opp_0 (T := float)) as Y.
      rewrite ord_le_antisym in Y. now apply andb_prop in Y. }
    rewrite ord_opp_le in Q2. rewrite ord_total in Q2 by (auto; apply ord_0).
    rewrite E0 in Q2. discriminate.
Qed.
Print Assumptions C121_regular_binary64.

(** The other four check for the wrong roots.  The rational fit 1 / (1 - 3 x + 2 x^2),
    with poles at 1/2 and 1, is accepted on [0.75, 1.25]. *)
Definition getF (k : kind) (o : fit float) (x y : float) : float :=
  get PrimFloat.sqrt noF noF noF2 k o x y.
Theorem C121_rational_refuted : exists (g : args float) (o : fit float),
  okF Rational g = Some o /\
  PrimFloat.leb (g_minx g) 1 = true /\ PrimFloat.leb 1 (g_maxx g) = true /\
  getF Rational o 1 0 = infinity.
Proof.
  exists (mkargs true 0.75 1.25 0 0 1 0 (-3) 2 0 0)%float.
  match goal with |- exists o, ?l = _ /\ _ =>
    let F := eval vm_compute in l in match F with Some ?F => exists F end end.
  split; [vm_compute; reflexivity|]. vm_compute. auto.
Qed.
Print Assumptions C121_rational_refuted.
(** And the same fit is refused on [2, 3], where it has no pole. *)
Theorem C121_rational_refused_refuted : exists (g : args R),
  proper Rational g /\ (forall x, inside (g_minx g) x (g_maxx g) -> divisor Rational g x <> 0) /\
  forall pw o, snd (initR pw Rational o g) = true.
Proof.
  exists (mkargs true 2 3 0 0 1 0 (-3) 2 0 0). split; [|split].
  - unfold proper; cbn. repeat split; try lra; discriminate.
  - cbn. unfold inside. intros x [A B]. nra.
  - intros pw o. unfold initR, init, base_init.
    cbn [yrange g_named g_minx g_maxx g_c g_d negb nle RNum nopp neps].
    pose proof Reps_pos as E. pose proof Reps_small as E2.
    rewrite Rleb_false by lra. rewrite Rleb_false by lra. cbv beta iota zeta.
    unfold roots_check. rnum. unfold Rdec. change (10 ^ 1)%Z with 10%Z.
    replace (-3 * -3 - 4 * 2) with 1 by ring. rewrite Rltb_true by lra.
    rewrite sqrt_1. rewrite (Rleb_true 2 (- (-3) - 5 / 10 * 1 + Reps)) by lra.
    rewrite (Rleb_true (- (-3) - 5 / 10 * 1 - Reps) 3) by lra. rewrite orb_true_r. reflexivity.
Qed.
Print Assumptions C121_rational_refused_refuted.
(** Sutherland's a sqrt (x^3) / (x - 1) is accepted on [0.5, 2]. *)
Theorem C121_sutherland_refuted : exists (g : args float) (o : fit float),
  okF Sutherland g = Some o /\
  PrimFloat.leb (g_minx g) 1 = true /\ PrimFloat.leb 1 (g_maxx g) = true /\
  getF Sutherland o 1 0 = infinity.
Proof.
  exists (mkargs true 0.5 2 0 0 1 (-1) 0 0 0 0)%float.
  match goal with |- exists o, ?l = _ /\ _ =>
    let F := eval vm_compute in l in match F with Some ?F => exists F end end.
  split; [vm_compute; reflexivity|]. vm_compute. auto.
Qed.
Print Assumptions C121_sutherland_refuted.
(** y / (x - 1) is accepted on [0.5, 2]. *)
Theorem C121_quadlininv_refuted : exists (g : args float) (o : fit float),
  okF QuadLinInv g = Some o /\
  PrimFloat.leb (g_minx g) 1 = true /\ PrimFloat.leb 1 (g_maxx g) = true /\
  getF QuadLinInv o 1 1 = infinity.
Proof.
  exists (mkargs true 0.5 2 0 10 0 (-1) 0 1 0 0)%float.
  match goal with |- exists o, ?l = _ /\ _ =>
    let F := eval vm_compute in l in match F with Some ?F => exists F end end.
  split; [vm_compute; reflexivity|]. vm_compute. auto.
Qed.
Print Assumptions C121_quadlininv_refuted.
(** The root of y + y^2 = x, which is real from -1/4 on, is accepted on [-10, -5], and
    after default construction on [-10, 10]: the results are NaN. *)
Theorem C121_quadraticroot_refuted :
  (exists (g : args float) (o : fit float),
     okF QuadraticRoot g = Some o /\
     PrimFloat.leb (g_minx g) (-6) = true /\ PrimFloat.leb (-6) (g_maxx g) = true /\
     getF QuadraticRoot o (-6) 0 = nan) /\
  (exists (g : args float) (o : fit float),
     initF QuadraticRoot fresh g = (o, false) /\ okF QuadraticRoot g = None /\
     PrimFloat.leb (g_minx g) (-6) = true /\ PrimFloat.leb (-6) (g_maxx g) = true /\
     getF QuadraticRoot o (-6) 0 = nan).
Proof.
  split.
  - exists (rootF 1 1 (-10) (-5))%float.
    match goal with |- exists o, ?l = _ /\ _ =>
      let F := eval vm_compute in l in match F with Some ?F => exists F end end.
    split; [vm_compute; reflexivity|]. vm_compute. auto.
  - exists (rootF 1 1 (-10) 10)%float.
    match goal with |- exists o, ?l = _ /\ _ =>
      let F := eval vm_compute in l in match F with (?F, _) => exists F end end.
    split; [vm_compute; reflexivity|]. vm_compute. auto.
Qed.
Print Assumptions C121_quadraticroot_refuted.

(** *** Non-vacuity: a quotient fit on [64, 2000] is accepted and gives a y / x, limited. *)
Definition noR (x _ : R) : R := x.
Definition exG : args R := mkargs true 64 2000 0 1000 28 0 0 0 0 0.
Example C119_example : exists o, initR noR Quotient fresh exG = (o, false) /\
  getR noR Quotient o 280 100 = 10 /\ getR noR Quotient o 3000 2000 = 14 /\
  excR noR Quotient o 3000 2000 = None.
Proof.
  destruct (initR noR Quotient fresh exG) as [o e] eqn:I.
  assert (e = false).
  { change e with (snd (o, e)). rewrite <- I.
    apply (C121_accepts noR Quotient fresh exG) with (eps := / IZR (2 ^ 23)); [reflexivity|].
    split; [unfold proper; cbn; repeat split; try lra; discriminate|]. left. cbn.
    change (2 ^ 23)%Z with 8388608%Z. lra. }
  subst e. exists o. split; [reflexivity|].
  rewrite !(C119_get _ _ _ _ _ I). cbn [two_vars g_minx g_maxx g_miny g_maxy exG formula g_a].
  split; [|split].
  - rewrite !into_id by (unfold inside; lra). lra.
  - unfold into, Rmax, Rmin. repeat destruct Rle_dec; lra.
  - destruct (C119_exceptional _ _ _ _ _ I 3000 2000) as (_ & E & _). apply E. cbn. unfold inside; lra.
Qed.
