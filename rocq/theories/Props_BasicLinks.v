(** C91-C97: basic links and the flows of a network of them. *)
From Coq Require Import Floats.
From Coq Require Import Reals Lra Lia List Arith Bool ZArith Permutation Psatz.
From Verif Require Import Num Loops Ord Round MathUtil Links Spec_Ldu Ldu Spec_Assembly Assembly
  BasicLinks Spec_BasicLinks Props_Network.
Import ListNotations.
Local Open Scope R_scope.

(** ** The shape of a link's contributions *)

Definition square (b : base (T := R)) : Prop :=
  b_a1 b = - b_a0 b /\ b_a2 b = - b_a0 b /\ b_a3 b = b_a0 b.

Definition shape (l : blink (T := R)) : Prop :=
  let b := bbase l in
  square b /\ b_w1 b = - b_w0 b /\
  match l with
  | Cond c => 0 <= b_a0 b <= 10 ^ 15 /\ (plain_like l = true -> b_w0 b = 0)
  | Source _ _ => b_a0 b = 0
  | Capacitor _ _ _ _ => True
  end.

Lemma set_adm_R (b : base (T := R)) a : square b ->
  square (set_adm b a) /\ b_a0 (set_adm b a) = a /\
  b_p0 (set_adm b a) = b_p0 b /\ b_p1 (set_adm b a) = b_p1 b /\
  b_w0 (set_adm b a) = b_w0 b /\ b_w1 (set_adm b a) = b_w1 b /\
  b_flux (set_adm b a) = b_flux b /\ b_malf (set_adm b a) = b_malf b /\ b_malfv (set_adm b a) = b_malfv b.
Proof.
  intros Sq. unfold set_adm, square in *. rnum. destruct (Rltb_spec 0 (Rabs (b_a0 b - a))) as [H|H];
    cbn [b_a0 b_a1 b_a2 b_a3 b_p0 b_p1 b_w0 b_w1 b_flux b_malf b_malfv].
  - repeat split.
  - assert (E : b_a0 b = a).
    { destruct (Req_dec (b_a0 b - a) 0) as [E|E]; [lra|]. apply Rabs_pos_lt in E. lra. }
    rewrite E in *. repeat split; try tauto.
Qed.

Lemma clamp_R g : 0 <= limit_range n0 g conductance_limit <= 10 ^ 15.
Proof.
  unfold limit_range, conductance_limit, nmax, nmin. rnum. unfold Rdec.
  replace (1 * IZR (10 ^ 15)) with (10 ^ 15) by (rewrite (pow_IZR 10 15); cbn; lra).
  assert (0 < 10 ^ 15) by (apply pow_lt; lra).
  destruct (Rltb_spec (10 ^ 15) g); destruct (Rltb_spec (10 ^ 15) 0); try destruct (Rltb_spec g 0); lra.
Qed.

Lemma cond_step_shape dt (c : cond (T := R)) : square (c_b c) -> b_w1 (c_b c) = - b_w0 (c_b c) ->
  (plain_like (Cond c) = true -> b_w0 (c_b c) = 0) -> shape (Cond (cond_step dt c)).
Proof.
  intros Sq W P. unfold cond_step.
  destruct (update_state dt c) as [eff lw] eqn:E. cbv zeta.
  set (g := limit_range n0 _ conductance_limit).
  assert (Hg : 0 <= g <= 10 ^ 15) by apply clamp_R. clearbody g.
  destruct (set_adm_R (c_b c) g Sq) as (S1 & A & _ & _ & W0 & W1 & _).
  unfold update_state in E.
  destruct (c_law c) as [|m mv cm rv|sp|sp f] eqn:L; cbn [plain_like] in P; rewrite ?L in P;
    inversion E; subst; unfold shape; cbn [bbase c_b plain_like c_law].
  - destruct S1 as (S1 & S2 & S3). unfold square. rewrite W0, W1, S1, S2, S3, A.
    repeat split; try apply Hg; try tauto; lra.
  - destruct S1 as (S1 & S2 & S3). unfold square. rewrite W0, W1, S1, S2, S3, A.
    repeat split; try apply Hg; try tauto; lra.
  - destruct S1 as (S1 & S2 & S3). unfold build_potential, with_src, square. cbn [b_a0 b_a1 b_a2 b_a3 b_w0 b_w1].
    rewrite S1, S2, S3, A. rnum. repeat split; try apply Hg; try lra; intros K; discriminate K.
  - destruct S1 as (S1 & S2 & S3). unfold build_potential, with_src, square. cbn [b_a0 b_a1 b_a2 b_a3 b_w0 b_w1].
    rewrite S1, S2, S3, A. rnum. repeat split; try apply Hg; try lra; intros K; discriminate K.
Qed.

Lemma shape_pre (l : blink (T := R)) : shape l ->
  square (bbase l) /\ b_w1 (bbase l) = - b_w0 (bbase l) /\
  (plain_like l = true -> b_w0 (bbase l) = 0).
Proof.
  unfold shape. intros (A & B & C). split; [exact A|]. split; [exact B|].
  destruct l; cbn [plain_like]; try discriminate. apply C.
Qed.

Lemma step_shape dt (l : blink (T := R)) : shape l -> shape (step dt l).
Proof.
  intros H. pose proof (shape_pre l H) as (Sq & W & P).
  destruct l as [c|s b|cap e v b]; cbn [step bbase] in *.
  - now apply cond_step_shape.
  - destruct H as (_ & _ & H0). unfold shape, source_step, with_src, with_flux, square in *.
    cbn [bbase b_a0 b_a1 b_a2 b_a3 b_w0 b_w1] in *. rnum. destruct (b_malf b); repeat split; try tauto; lra.
  - unfold build_capacitance. cbv zeta. set (a := if dt <~ neps then _ else _).
    destruct (set_adm_R b a Sq) as (S1 & A & _).
    unfold shape, with_src, square in *. cbn [bbase b_a0 b_a1 b_a2 b_a3 b_w0 b_w1] in *. rnum.
    repeat split; try apply S1.
Qed.

Lemma minor_shape dt (l : blink (T := R)) : shape l -> shape (minor_step dt l).
Proof.
  intros H. destruct l as [c|s b|cap e v b]; cbn [minor_step]; auto.
  destruct (c_law c) eqn:L; auto. apply (step_shape dt (Cond c)). exact H.
Qed.

Lemma reach_shape (l : blink (T := R)) : reach l -> shape l.
Proof.
  induction 1 as [l F|l l' H IH (V & K)|dt l H IH|dt l H IH|x y l H IH|l H IH|l H IH|l H IH].
  - unfold fresh, shape, square in *. cbv zeta in *. cbn [n0 RNum] in F.
    destruct F as (-> & -> & -> & -> & -> & -> & _).
    assert (0 < 10 ^ 15) by (apply pow_lt; lra). destruct l; repeat split; lra.
  - unfold shape, same_vectors, square in *. cbv zeta in *.
    destruct V as (_ & _ & -> & -> & -> & -> & -> & -> & _).
    destruct l as [c|s b|cap e v b], l' as [c'|s' b'|cap' e' v' b']; try contradiction; auto.
    cbn [plain_like] in *. destruct (c_law c), (c_law c'); try contradiction; auto;
      destruct IH as (A & B & C & D); repeat split; try tauto; try apply A; try apply C; discriminate.
  - now apply step_shape.
  - now apply minor_shape.
  - destruct l; exact IH.
  - destruct l; exact IH.
  - destruct l; exact IH.
  - destruct l; exact IH.
Qed.

Lemma built_reach {T} {N : Num T} (l : blink (T := T)) : built l -> reach l.
Proof.
  induction 1.
  - now apply r_step.
  - now apply r_minor.
  - now apply r_place.
  - now apply r_poll.
Qed.

(** A source within the major step shows its own flux. *)
Lemma built_source (l : blink (T := R)) : built l ->
  match l with Source _ b => b_w0 b = - b_flux b | _ => True end.
Proof.
  induction 1 as [dt l H|dt l H IH|x y l H IH|l H IH].
  - destruct l; cbn [step]; auto.
  - destruct l as [c|s b|cap e v b]; cbn [minor_step]; auto. destruct (c_law c); auto.
  - destruct l; exact IH.
  - destruct l; exact IH.
Qed.

(** ** Fluxes of one link *)

Lemma self0 z : Rabs (z - z) <= 0.
Proof. replace (z - z) with 0 by ring. rewrite Rabs_R0. lra. Qed.

Lemma dead_bound a x y :
  let f := if Rltb (Rabs (x - y)) (Rmax x y * (100 * Reps)) then 0 else a * (x - y) in
  Rabs (f - (a * (x - y) - 0)) <= Rabs a * (Rmax 0 (Rmax x y) * (100 * Reps)) /\
  (Rmax x y * (100 * Reps) <= Rabs (x - y) -> f = a * (x - y) - 0).
Proof.
  cbv zeta. pose proof Reps_pos. pose proof (Rabs_pos a).
  destruct (Rltb_spec (Rabs (x - y)) (Rmax x y * (100 * Reps))) as [Hd|Hd].
  - split; [|intros K; lra].
    replace (0 - (a * (x - y) - 0)) with (- (a * (x - y))) by ring.
    rewrite Rabs_Ropp, Rabs_mult. apply Rmult_le_compat_l; [apply Rabs_pos|].
    apply Rle_trans with (Rmax x y * (100 * Reps)); [lra|].
    apply Rmult_le_compat_r; [lra|]. apply Rmax_r.
  - split; [|intros _; lra].
    replace (a * (x - y) - (a * (x - y) - 0)) with 0 by ring.
    rewrite Rabs_R0. apply Rmult_le_pos; [apply Rabs_pos|].
    apply Rmult_le_pos; [apply Rmax_l|lra].
Qed.

Lemma flux_bound n p (w : wired (T := R)) : built (w_link w) ->
  let w' := wmap flows (load n p w) in
  let b := bbase (w_link w) in
  let x := port_pot n p (w_n0 w) in let y := port_pot n p (w_n1 w) in
  Rabs (flux_of (w_link w') - (b_a0 b * (x - y) - b_w0 b)) <= when (plain_like (w_link w)) (lost n p w) /\
  (plain_like (w_link w) = false \/ Rmax x y * (100 * Reps) <= Rabs (x - y) ->
   flux_of (w_link w') = b_a0 b * (x - y) - b_w0 b).
Proof.
  intros B. pose proof (built_source _ B) as BS. pose proof (reach_shape _ (built_reach _ B)) as Sh.
  cbv zeta. destruct w as [l n0' n1']. cbn [w_link w_n0 w_n1 load wmap] in *.
  unfold lost. cbn [w_link w_n0 w_n1].
  set (x := port_pot n p n0'). set (y := port_pot n p n1'). clearbody x y.
  destruct l as [c|s b|cap e v b]; cbn [set_base flows flux_of bbase plain_like w_link].
  - unfold shape in Sh. cbn [bbase plain_like] in Sh. destruct Sh as (_ & _ & Ha & Hw).
    unfold cond_flows, with_base. cbn [c_b c_law].
    assert (F1 : flux_src (with_drop (with_pot (c_b c) x y) (delta (with_pot (c_b c) x y))) =
                 b_a0 (c_b c) * (x - y) - b_w0 (c_b c)).
    { unfold flux_src, with_drop, with_pot, delta. cbn [b_drop b_a0 b_w0 b_p0 b_p1]. rnum. ring. }
    assert (F2 : flux_dead (with_drop (with_pot (c_b c) x y) (delta (with_pot (c_b c) x y))) =
                 if Rltb (Rabs (x - y)) (Rmax x y * (100 * Reps)) then 0 else b_a0 (c_b c) * (x - y)).
    { unfold flux_dead, with_drop, with_pot, delta, eps100. cbn [b_drop b_a0 b_w0 b_p0 b_p1].
      rewrite nmax_R. rnum. unfold Rdec.
      destruct (Rltb (Rabs (x - y)) (Rmax x y * (100 * Reps))); [reflexivity|ring]. }
    destruct (c_law c) as [|m mv cm rv|sp|sp f] eqn:L;
      cbn [compute_power with_power with_flux b_flux when].
    + rewrite F2, (Hw eq_refl). destruct (dead_bound (b_a0 (c_b c)) x y) as (D1 & D2).
      split; [exact D1|]. intros [K|K]; [discriminate K|now apply D2].
    + rewrite F2, (Hw eq_refl). destruct (dead_bound (b_a0 (c_b c)) x y) as (D1 & D2).
      split; [exact D1|]. intros [K|K]; [discriminate K|now apply D2].
    + rewrite F1. split; [exact (self0 _)|reflexivity].
    + rewrite F1. split; [exact (self0 _)|reflexivity].
  - destruct Sh as (_ & _ & A0). cbn [bbase] in A0.
    match goal with |- _ /\ (?P -> _) =>
      change (Rabs (b_flux b - (b_a0 b * (x - y) - b_w0 b)) <= 0 /\
              (P -> b_flux b = b_a0 b * (x - y) - b_w0 b)) end.
    rewrite A0, BS. replace (0 * (x - y) - - b_flux b) with (b_flux b) by ring.
    split; [apply self0|reflexivity].
  - match goal with |- _ /\ (?P -> _) =>
      change (Rabs ((x - y) * b_a0 b - b_w0 b - (b_a0 b * (x - y) - b_w0 b)) <= 0 /\
              (P -> (x - y) * b_a0 b - b_w0 b = b_a0 b * (x - y) - b_w0 b)) end.
    rewrite (Rmult_comm (x - y)). split; [apply self0|reflexivity].
Qed.

(** ** The flow pass adds every flux to its nodes *)

Definition inflow (w : wired (T := R)) (k : Z) : R :=
  (when (Z.eqb (w_n1 w) k) 1 - when (Z.eqb (w_n0 w) k) 1) * flux_of (w_link w).

Lemma transport_net (nodes : Z -> Z) f (s : fluxes (T := R)) :
  exists s', transport_flux 2 nodes f 0 1 s = Some s' /\
  forall k, net_flux s' k = net_flux s k +
    (when (Z.eqb (nodes 1%Z) k) 1 - when (Z.eqb (nodes 0%Z) k) 1) * f.
Proof.
  unfold transport_flux. cbn [valid_port]. unfold valid_port.
  replace ((-1 <? 1)%Z && (1 <? Z.of_nat 2)%Z && ((-1 <? 0)%Z && (0 <? Z.of_nat 2)%Z)) with true by reflexivity.
  eexists. split; [reflexivity|]. intros k. unfold net_flux. rnum.
  destruct (Rltb_spec 0 f); [|destruct (Rltb_spec f 0)];
    unfold collect_influx, collect_outflux, setz, when; cbn [f_in f_out]; rnum;
    try (rewrite (Z.eqb_sym k (nodes 0%Z)), (Z.eqb_sym k (nodes 1%Z)));
    destruct (Z.eqb_spec (nodes 1%Z) k) as [E1|E1]; destruct (Z.eqb_spec (nodes 0%Z) k) as [E0|E0];
    rewrite ?E1, ?E0; try lra.
  all: assert (f = 0) by lra; subst f; lra.
Qed.

Lemma pass_net (ws : list (wired (T := R))) : forall s0,
  exists s, fold_left (fun os w => match os with
     | Some s => transport_flux 2 (wnode w) (b_flux (bbase (w_link w))) 0 1 s
     | None => None end) ws (Some s0) = Some s /\
  forall k, net_flux s k = net_flux s0 k + lsum (fun w => inflow w k) ws.
Proof.
  induction ws as [|w ws IH]; intros s0.
  - exists s0. split; [reflexivity|]. intros k. cbn. lra.
  - cbn [fold_left]. destruct (transport_net (wnode w) (b_flux (bbase (w_link w))) s0) as (s1 & -> & H1).
    destruct (IH s1) as (s & -> & H2). exists s. split; [reflexivity|]. intros k.
    rewrite H2, H1. cbn [lsum]. unfold inflow at 2. unfold wnode. cbn. unfold flux_of. lra.
Qed.

Lemma flow_pass_net (ws : list (wired (T := R))) :
  exists s, snd (flow_pass ws) = Some s /\
  forall k, net_flux s k = lsum (fun w => inflow (wmap flows w) k) ws.
Proof.
  unfold flow_pass. cbn [snd]. destruct (pass_net (rev (map (wmap flows) ws)) no_flows) as (s & -> & H).
  exists s. split; [reflexivity|]. intros k. rewrite H. unfold net_flux at 1. cbn [no_flows f_in f_out].
  rewrite (lsum_perm _ (rev (map (wmap flows) ws)) (map (wmap flows) ws))
    by (apply Permutation_sym, Permutation_rev).
  rnum. replace (0 - 0) with 0 by ring. rewrite Rplus_0_l.
  clear. induction ws as [|w ws IH]; cbn; [reflexivity|]. now rewrite IH.
Qed.

(** ** C91 Kirchhoff *)

(** A link's rows times the potentials. *)
Lemma contrib_row n (w : wired (T := R)) p i : square (bbase (w_link w)) -> on_network n w -> (i < n)%nat ->
  rsum n (fun j => contrib (shown n w) (fidx n i j) * p j) =
  (when (Z.eqb (w_n0 w) (Z.of_nat i)) 1 - when (Z.eqb (w_n1 w) (Z.of_nat i)) 1) *
  (b_a0 (bbase (w_link w)) * (port_pot n p (w_n0 w) - port_pot n p (w_n1 w))).
Proof.
  intros (A1 & A2 & A3) (N0 & N1) Hi. destruct w as [l x y]. cbn [w_link w_n0 w_n1] in *.
  set (b := bbase l) in *. set (a := b_a0 b) in *.
  assert (C : forall u v (c : R), (0 <= u <= Z.of_nat n)%Z -> (0 <= v <= Z.of_nat n)%Z ->
    rsum n (fun j => when (Z.eqb (corner (Z.of_nat n) u v) (fidx n i j)) c * p j) =
    when (Z.eqb u (Z.of_nat i)) 1 * (c * port_pot n p v)).
  { intros u v c Hu Hv. unfold corner, port_pot, fidx.
    destruct (Z.eqb_spec u (Z.of_nat n)) as [->|Un]; cbn [orb].
    { rewrite rsum_zero.
      - destruct (Z.eqb_spec (Z.of_nat n) (Z.of_nat i)); [lia|]. cbn [when]. lra.
      - intros j Hj. destruct (Z.eqb_spec (-1) (Z.of_nat (i * n + j))); [lia|]. cbn [when]. lra. }
    destruct (Z.eqb_spec v (Z.of_nat n)) as [->|Vn].
    { rewrite Z.ltb_irrefl. rewrite rsum_zero.
      - unfold n0; cbn. lra.
      - intros j Hj. destruct (Z.eqb_spec (-1) (Z.of_nat (i * n + j))); [lia|]. cbn [when]. lra. }
    destruct (Z.ltb_spec v (Z.of_nat n)); [|lia].
    destruct (Z.eqb_spec u (Z.of_nat i)) as [->|Ui]; cbn [when].
    - rewrite (rsum_single n (Z.to_nat v)).
      + destruct (Z.eqb_spec (Z.of_nat i * Z.of_nat n + v) (Z.of_nat (i * n + Z.to_nat v))); [cbn [when]; lra|lia].
      + lia.
      + intros j Hj Hne. destruct (Z.eqb_spec (Z.of_nat i * Z.of_nat n + v) (Z.of_nat (i * n + j))); [lia|].
        cbn [when]. lra.
    - rewrite rsum_zero; [lra|]. intros j Hj.
      destruct (Z.eqb_spec (u * Z.of_nat n + v) (Z.of_nat (i * n + j))) as [E|]; [|cbn [when]; lra].
      exfalso. apply Ui. nia. }
  rewrite (rsum_ext n _ (fun j =>
     when (Z.eqb (corner (Z.of_nat n) x x) (fidx n i j)) a * p j +
     (when (Z.eqb (corner (Z.of_nat n) x y) (fidx n i j)) (- a) * p j +
     (when (Z.eqb (corner (Z.of_nat n) y x) (fidx n i j)) (- a) * p j +
      when (Z.eqb (corner (Z.of_nat n) y y) (fidx n i j)) a * p j)))).
  2:{ intros j Hj. unfold contrib, shown. cbn [lk_msize lk_map lk_adm rsum sel4 w_n0 w_n1 w_link].
      fold b. rewrite A1, A2, A3. fold a. ring. }
  rewrite !rsum_plus, !C by assumption. ring.
Qed.

Lemma contrib_src n (w : wired (T := R)) i : b_w1 (bbase (w_link w)) = - b_w0 (bbase (w_link w)) ->
  scontrib (shown n w) (Z.of_nat i) =
  (when (Z.eqb (w_n0 w) (Z.of_nat i)) 1 - when (Z.eqb (w_n1 w) (Z.of_nat i)) 1) * b_w0 (bbase (w_link w)).
Proof.
  intros W. unfold scontrib, shown. cbn [lk_ports lk_nodes lk_src rsum Nat.eqb]. rewrite W.
  unfold when. destruct (Z.eqb _ _), (Z.eqb _ _); lra.
Qed.

Lemma lsum_map {X Y} (f : Y -> R) (g : X -> Y) l : lsum f (map g l) = lsum (fun x => f (g x)) l.
Proof. induction l; cbn; [reflexivity|]. now rewrite IHl. Qed.
Lemma lsum_minus {X} (f g : X -> R) l : lsum f l - lsum g l = lsum (fun x => f x - g x) l.
Proof. induction l; cbn; lra. Qed.
Lemma lsum_abs {X} (f g : X -> R) l : (forall x, In x l -> Rabs (f x) <= g x) -> Rabs (lsum f l) <= lsum g l.
Proof.
  induction l as [|x l IH]; intros H; cbn; [rewrite Rabs_R0; lra|].
  eapply Rle_trans; [apply Rabs_triang|]. pose proof (H x (or_introl eq_refl)).
  pose proof (IH (fun y Hy => H y (or_intror Hy))). lra.
Qed.
Lemma lsum_ext {X} (f g : X -> R) l : (forall x, In x l -> f x = g x) -> lsum f l = lsum g l.
Proof.
  induction l as [|x l IH]; intros H; cbn; [reflexivity|].
  rewrite (H x (or_introl eq_refl)), IH; [reflexivity|]. intros y Hy. apply H. now right.
Qed.
Lemma rsum_lsum {X} n (f : X -> nat -> R) l :
  rsum n (fun j => lsum (fun x => f x j) l) = lsum (fun x => rsum n (f x)) l.
Proof.
  induction l as [|x l IH]; cbn; [now rewrite rsum_zero|]. rewrite rsum_plus, IH. reflexivity.
Qed.
Lemma lsum_scal_r {X} (f : X -> R) c l : lsum f l * c = lsum (fun x => f x * c) l.
Proof. induction l; cbn; lra. Qed.

Lemma row_of n (ws : list (wired (T := R))) A0 p i : (forall w, In w ws -> built (w_link w)) ->
  (forall w, In w ws -> on_network n w) -> (i < n)%nat ->
  mat_vec n (view n (build_admittance n (map (shown n) ws) A0)) p i =
  lsum (fun w => (when (Z.eqb (w_n0 w) (Z.of_nat i)) 1 - when (Z.eqb (w_n1 w) (Z.of_nat i)) 1) *
    (b_a0 (bbase (w_link w)) * (port_pot n p (w_n0 w) - port_pot n p (w_n1 w)))) ws.
Proof.
  intros B O Hi. unfold mat_vec.
  rewrite (rsum_ext n _ (fun j => lsum (fun w => contrib (shown n w) (fidx n i j) * p j) ws)).
  2:{ intros j Hj. unfold view. fold (fidx n i j). rewrite build_admittance_sum by now apply fidx_range.
      rewrite lsum_map, lsum_scal_r. reflexivity. }
  rewrite (rsum_lsum n (fun w j => contrib (shown n w) (fidx n i j) * p j)).
  apply lsum_ext. intros w Hw. apply contrib_row; auto.
  apply (shape_pre (w_link w)). apply reach_shape, built_reach, B, Hw.
Qed.

Lemma sources_of n (ws : list (wired (T := R))) w0 : (forall w, In w ws -> built (w_link w)) ->
  (forall w, In w ws -> on_network n w) ->
  exists W, build_source n (map (shown n) ws) w0 = Some W /\ forall i, (i < n)%nat ->
    W (Z.of_nat i) = lsum (fun w => (when (Z.eqb (w_n0 w) (Z.of_nat i)) 1 - when (Z.eqb (w_n1 w) (Z.of_nat i)) 1)
       * b_w0 (bbase (w_link w))) ws.
Proof.
  intros B O. destruct (build_source_sum n (map (shown n) ws) w0) as (W & HW & HS).
  { intros l Hl. apply in_map_iff in Hl. destruct Hl as (w & <- & Hw). intros q Hq.
    destruct (O w Hw). unfold shown. cbn [lk_nodes]. destruct (Nat.eqb q 0); lia. }
  exists W. split; [exact HW|]. intros i Hi. rewrite HS by lia. rewrite lsum_map. apply lsum_ext.
  intros w Hw. apply contrib_src. apply (shape_pre (w_link w)). apply reach_shape, built_reach, B, Hw.
Qed.

(** The net flux of a node is the residual of its equation, up to the flux that
    the dead band of conductors does not move. *)
Theorem C91_net_flux_is_residual n (ws : list (wired (T := R))) A0 w0 p :
  (forall w, In w ws -> built (w_link w)) -> (forall w, In w ws -> on_network n w) ->
  exists W s, build_source n (map (shown n) ws) w0 = Some W /\
    snd (flow_pass (map (load n p) ws)) = Some s /\
    forall i, (i < n)%nat ->
    let r := W (Z.of_nat i) - mat_vec n (view n (build_admittance n (map (shown n) ws) A0)) p i in
    Rabs (net_flux s (Z.of_nat i) - r) <= lsum (slack n p i) ws /\
    ((forall w, In w ws -> plain_like (w_link w) = true -> touches w i = true ->
        let x := port_pot n p (w_n0 w) in let y := port_pot n p (w_n1 w) in
        Rmax x y * (100 * Reps) <= Rabs (x - y)) ->
     net_flux s (Z.of_nat i) = r).
Proof.
  intros B O. destruct (sources_of n ws w0 B O) as (W & HW & HS).
  destruct (flow_pass_net (map (load n p) ws)) as (s & Hs & Hn).
  exists W, s. split; [exact HW|]. split; [exact Hs|]. intros i Hi r.
  assert (Er : net_flux s (Z.of_nat i) - r = lsum (fun w =>
    (when (Z.eqb (w_n1 w) (Z.of_nat i)) 1 - when (Z.eqb (w_n0 w) (Z.of_nat i)) 1) *
    (flux_of (w_link (wmap flows (load n p w))) -
     (b_a0 (bbase (w_link w)) * (port_pot n p (w_n0 w) - port_pot n p (w_n1 w)) - b_w0 (bbase (w_link w))))) ws).
  { unfold r. rewrite Hn, HS, row_of by assumption. rewrite lsum_map.
    rewrite lsum_minus, lsum_minus. apply lsum_ext. intros w Hw. unfold inflow.
    destruct w as [l x y]. cbn [wmap load w_n0 w_n1 w_link]. ring. }
  split.
  - rewrite Er. apply lsum_abs. intros w Hw. destruct (flux_bound n p w (B w Hw)) as (F & _).
    cbv zeta in F. rewrite Rabs_mult. unfold slack.
    set (d := flux_of _ - _) in *. clearbody d. pose proof (Rabs_pos d) as Hd.
    unfold touches. unfold when in *.
    destruct (Z.eqb (w_n1 w) (Z.of_nat i)), (Z.eqb (w_n0 w) (Z.of_nat i)), (plain_like (w_link w)); cbn [orb andb];
      rewrite ?Rminus_0_r, ?Rminus_diag_eq, ?Rminus_0_l, ?Rabs_Ropp, ?Rabs_R1, ?Rabs_R0 by reflexivity; lra.
  - intros K. apply Rminus_diag_uniq. rewrite Er.
    rewrite (lsum_ext _ (fun _ => 0)).
    + clear. induction ws; cbn; lra.
    + intros w Hw. destruct (flux_bound n p w (B w Hw)) as (_ & F). cbv zeta in F.
      destruct (touches w i) eqn:E.
      * rewrite F; [ring|]. destruct (plain_like (w_link w)) eqn:P; [right; now apply K | now left].
      * unfold touches in E. apply orb_false_iff in E. destruct E as (-> & ->). cbn [when]. ring.
Qed.
Print Assumptions C91_net_flux_is_residual.

(** ** C92 Power balance *)
Lemma rsum_pick n (p : nat -> R) (k : Z) : (0 <= k <= Z.of_nat n)%Z ->
  rsum n (fun i => p i * when (Z.eqb k (Z.of_nat i)) 1) = port_pot n p k.
Proof.
  intros Hk. unfold port_pot. destruct (Z.ltb_spec k (Z.of_nat n)).
  - rewrite (rsum_single n (Z.to_nat k)).
    + destruct (Z.eqb_spec k (Z.of_nat (Z.to_nat k))); [cbn [when]; lra|lia].
    + lia.
    + intros j Hj Hne. destruct (Z.eqb_spec k (Z.of_nat j)); [lia|]. cbn [when]. lra.
  - rewrite rsum_zero; [reflexivity|]. intros j Hj.
    destruct (Z.eqb_spec k (Z.of_nat j)); [lia|]. cbn [when]. lra.
Qed.

Lemma power_is (w : wired (T := R)) n p :
  let w' := wmap flows (load n p w) in
  power_of (w_link w') = flux_of (w_link w') * (port_pot n p (w_n1 w) - port_pot n p (w_n0 w)).
Proof.
  destruct w as [l x y]. cbn [wmap load w_link w_n0 w_n1]. cbv zeta.
  set (u := port_pot n p x). set (v := port_pot n p y). clearbody u v.
  destruct l as [c|s b|cap e vv b]; unfold power_of, flux_of; cbn [flows set_base bbase].
  - unfold cond_flows, with_base, compute_power, with_power, delta. cbn [c_b b_power b_flux b_p0 b_p1 with_flux with_drop with_pot].
    rnum. destruct (c_law c); cbn [b_p0 b_p1 with_flux with_drop with_pot]; ring.
  - unfold source_flows, compute_power, with_power, delta. cbn [b_power b_flux b_p0 b_p1 with_drop with_pot]. rnum. ring.
  - unfold cap_flows, compute_power, with_power, delta. cbn [b_power b_flux b_p0 b_p1 with_flux with_drop with_pot]. rnum. ring.
Qed.

Theorem C92_power_balance n (ws : list (wired (T := R))) p :
  (forall w, In w ws -> on_network n w) ->
  exists s, snd (flow_pass (map (load n p) ws)) = Some s /\
  lsum (fun w => power_of (w_link w)) (fst (flow_pass (map (load n p) ws))) =
  rsum n (fun i => p i * net_flux s (Z.of_nat i)).
Proof.
  intros O. destruct (flow_pass_net (map (load n p) ws)) as (s & Hs & Hn).
  exists s. split; [exact Hs|]. unfold flow_pass. cbn [fst]. rewrite !lsum_map.
  rewrite (rsum_ext n _ (fun i => lsum (fun w => p i * inflow (wmap flows (load n p w)) (Z.of_nat i)) ws)).
  2:{ intros i Hi. rewrite Hn, lsum_map. rewrite Rmult_comm, lsum_scal_r. apply lsum_ext. intros; ring. }
  rewrite (rsum_lsum n (fun w i => p i * inflow (wmap flows (load n p w)) (Z.of_nat i))).
  apply lsum_ext. intros w Hw. rewrite power_is.
  destruct (O w Hw) as (O0 & O1).
  rewrite <- (rsum_pick n p (w_n0 w) O0), <- (rsum_pick n p (w_n1 w) O1).
  unfold inflow. set (f := flux_of _). clearbody f.
  replace (rsum n (fun i => p i * when (Z.eqb (w_n1 w) (Z.of_nat i)) 1) - rsum n (fun i => p i * when (Z.eqb (w_n0 w) (Z.of_nat i)) 1))
    with (rsum n (fun i => p i * when (Z.eqb (w_n1 w) (Z.of_nat i)) 1 + -1 * (p i * when (Z.eqb (w_n0 w) (Z.of_nat i)) 1)))
    by (rewrite rsum_plus, rsum_scal; ring).
  rewrite <- rsum_scal. apply rsum_ext. intros i Hi. destruct w as [l x y]. cbn [wmap load w_n0 w_n1]. ring.
Qed.
Print Assumptions C92_power_balance.
