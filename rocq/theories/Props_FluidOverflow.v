(** C132: what a fluid node hands out when more is asked of it than it has. *)
From Coq Require Import Floats.
From Coq Require Import Reals Lra Lia List Arith Bool ZArith.
From Verif Require Import Num MathUtil Fluid Spec_Fluid Props_Fluid FluidNode Spec_FluidNode Props_FluidNode
  Props_FluidNet.
Import ListNotations.
Open Scope R_scope.

(** ** What leaves the node in a step: of what it holds first, then of what flows in.
    Amounts are asked for in moles. *)
Definition from_content (n : fnode R) (dt : R) : R :=
  Rmin (n_sched n * dt) (f_mole (n_content n)) * f_mw (n_content n).
Definition from_inflow (n : fnode R) (dt : R) : R :=
  if Rlt_dec Reps (f_mw (n_inflow n)) then
    Rmin (Rmax 0 (n_in n) * dt) (Rmax 0 (n_sched n * dt - f_mole (n_content n)) * f_mw (n_inflow n))
  else 0.
(** The temperature change of an expansion from [p1] to [p2]. *)
Definition expands (pw : R -> R -> R) (sf p1 p2 : R) (c : fluid R) : R :=
  match f_phase c with
  | Some O => if Rlt_dec 0 p1 then
                if Rlt_dec Reps (p2 / p1) then
                  if Rlt_dec Reps (f_gam c) then
                    sf * (f_t c * pw (p2 / p1) ((f_gam c - 1) / f_gam c) - f_t c)
                  else 0
                else 0
              else 0
  | _ => 0
  end.

Lemma min_R (a b : R) : nmin a b = Rmin a b.
Proof. unfold nmin. rnum. unfold Rmin. destruct (Rltb_spec b a), (Rle_dec a b); lra. Qed.
Lemma max_R' (a b : R) : nmax a b = Rmax a b.
Proof. unfold nmax. rnum. unfold Rmax. destruct (Rltb_spec a b), (Rle_dec a b); lra. Qed.

Lemma out_mass_R n dt : out_mass n dt = from_content n dt.
Proof. unfold out_mass, from_content, out_moles. rewrite min_R. reflexivity. Qed.
Lemma thru_mass_R n dt : 0 < dt -> thru_mass n dt = from_inflow n dt.
Proof.
  intro D. unfold thru_mass, from_inflow, in_moles, out_moles. rewrite !min_R, max_R'. rnum.
  replace (n_sched n * dt - Rmin (n_sched n * dt) (f_mole (n_content n)))
    with (Rmax 0 (n_sched n * dt - f_mole (n_content n)))
    by (unfold Rmax, Rmin; destruct (Rle_dec _ _), (Rle_dec _ _); lra).
  set (x := Rmax 0 (n_sched n * dt - f_mole (n_content n))).
  assert (X : 0 <= x) by apply Rmax_l. clearbody x. rewrite (Rmax_comm (n_in n)).
  unfold Rltb. pose proof Reps_pos. destruct (Rlt_dec Reps (f_mw (n_inflow n))) as [L|L].
  - assert (M : forall a b k, 0 < k -> Rmin (a / k) b * k = Rmin a (b * k)).
    { intros a b k K. assert (a / k * k = a) by (field; lra). unfold Rmin.
      destruct (Rle_dec (a / k) b), (Rle_dec a (b * k)); try lra; exfalso; nra. }
    rewrite M by lra. reflexivity.
  - rewrite Rmin_left by exact X. ring.
Qed.
Lemma per_time_R m dt : 0 < dt -> per_time m dt = m / dt.
Proof. intro D. unfold per_time. rnum. rewrite Rltb_true by exact D. reflexivity. Qed.

(** ** The amounts *)
(** Nothing leaves that is not there, the contents go first, the flag that the network
    looks at says whether they suffice, and all that is asked for leaves if contents and
    inflow are enough. *)
Theorem C132_amounts : forall n dt, 0 < dt -> 0 <= n_sched n -> 0 <= f_mole (n_content n) ->
  0 < f_mw (n_content n) -> f_mass (n_content n) = f_mole (n_content n) * f_mw (n_content n) ->
  0 <= from_content n dt <= f_mass (n_content n) /\
  0 <= from_inflow n dt <= Rmax 0 (n_in n) * dt /\
  (overflowing n dt = true <-> from_content n dt < n_sched n * dt * f_mw (n_content n)) /\
  (overflowing n dt = true -> from_content n dt = f_mass (n_content n)) /\
  (overflowing n dt = false -> from_content n dt = n_sched n * dt * f_mw (n_content n) /\ from_inflow n dt = 0) /\
  (Reps < f_mw (n_inflow n) ->
   from_content n dt / f_mw (n_content n) + from_inflow n dt / f_mw (n_inflow n) =
   Rmin (n_sched n * dt) (f_mole (n_content n) + Rmax 0 (n_in n) * dt / f_mw (n_inflow n))).
Proof.
  intros n dt D S M W E. unfold overflowing. cbn [nlt nmul RNum].
  assert (I : 0 <= Rmax 0 (n_in n) * dt) by (pose proof (Rmax_l 0 (n_in n)); nra).
  assert (S' : 0 <= n_sched n * dt) by nra.
  assert (A : 0 <= from_content n dt <= f_mass (n_content n)).
  { unfold from_content. rewrite E. unfold Rmin. destruct (Rle_dec _ _); split; nra. }
  assert (B : 0 <= from_inflow n dt <= Rmax 0 (n_in n) * dt).
  { unfold from_inflow. pose proof Reps_pos. destruct (Rlt_dec _ _); [|lra]. split; [|apply Rmin_l].
    apply Rmin_glb; [exact I|]. pose proof (Rmax_l 0 (n_sched n * dt - f_mole (n_content n))). nra. }
  split; [exact A|]. split; [exact B|]. clear A B.
  unfold from_inflow. set (r := Rmax 0 (n_in n) * dt) in *. clearbody r.
  destruct (Rltb_spec (f_mole (n_content n)) (n_sched n * dt)) as [L|L].
  - assert (F : from_content n dt = f_mass (n_content n)).
    { unfold from_content. rewrite Rmin_right by lra. lra. }
    split; [|split; [|split]].
    + split; [intros _|reflexivity]. rewrite F, E. nra.
    + intros _. exact F.
    + discriminate.
    + intro P. rewrite F, E. destruct (Rlt_dec Reps _) as [_|N]; [|contradiction].
      rewrite Rmax_right by lra. pose proof Reps_pos.
      set (k := f_mw (n_inflow n)) in *. set (x := n_sched n * dt) in *. set (m := f_mole (n_content n)) in *.
      replace (m * f_mw (n_content n) / f_mw (n_content n)) with m by (field; lra).
      assert (Q : r / k * k = r) by (field; lra). assert (K : 0 < k) by lra. clearbody k x m. clear - Q K.
      assert (G : (x - m) * k / k = x - m) by (field; lra).
      unfold Rmin. destruct (Rle_dec r ((x - m) * k)), (Rle_dec x (m + r / k)); try lra.
      * assert (r / k <= x - m); [|lra]. apply (Rmult_le_reg_r k); [exact K|]. rewrite Q. assumption.
      * rewrite G. assert (r / k * k >= (x - m) * k); [rewrite Q; lra|]. assert (x - m <= r / k); [|lra]. apply (Rmult_le_reg_r k); lra.
  - assert (F : from_content n dt = n_sched n * dt * f_mw (n_content n)).
    { unfold from_content. rewrite Rmin_left by lra. reflexivity. }
    match goal with |- context [(if Rlt_dec Reps ?a then ?b else 0)] =>
      assert (G : (if Rlt_dec Reps a then b else 0) = 0) end.
    { destruct (Rlt_dec _ _); [|reflexivity]. rewrite (Rmax_left 0 (n_sched n * dt - _)) by lra.
      rewrite Rmult_0_l. apply Rmin_right. assumption. }
    split; [|split; [|split]].
    + split; [discriminate|]. rewrite F. lra.
    + discriminate.
    + intros _. split; assumption.
    + intro P. rewrite F, G. pose proof Reps_pos. rewrite Rmin_left.
      * field. lra.
      * assert (0 <= r / f_mw (n_inflow n)); [|lra]. apply Rmult_le_pos; [exact I|]. left. apply Rinv_0_lt_compat. lra.
Qed.
Print Assumptions C132_amounts.

(** ** The node afterwards *)
Lemma mix_mass (out : fluid R) a i b f' q : mix_masses out a i b = Ok (f', q) -> f_mass f' = b + a.
Proof.
  unfold mix_masses. destruct (_ <~ _); [discriminate|]. destruct (normalize_array _) as [fr nm].
  unfold set_mass_fractions. destruct (length _ <? length _)%nat; [discriminate|].
  destruct (check_fractions _); [|discriminate]. intro H. injection H as <- _. reflexivity.
Qed.

Lemma cap_mass pw n dt c' damp edt : 0 < dt -> 0 <= n_sched n -> 0 <= f_mole (n_content n) ->
  0 < f_mw (n_content n) -> f_mass (n_content n) = f_mole (n_content n) * f_mw (n_content n) ->
  integrate_cap sqrt pw n dt = Ok (c', damp, edt) ->
  f_mass c' = Rmax Reps (f_mass (n_content n) + n_in n * dt - from_content n dt - from_inflow n dt) /\
  edt = expands pw (n_expsf n) (n_pp n) (f_p (n_content n)) (n_content n).
Proof.
  intros D S M W E H. destruct (C132_amounts n dt D S M W E) as ((_ & A) & _).
  unfold integrate_cap in H. rewrite out_mass_R, thru_mass_R, max_R' in H by exact D. revert H.
  replace (Rmax n0 (f_mass (n_content n) -~ from_content n dt)) with (f_mass (n_content n) - from_content n dt)
    by (rnum; rewrite Rmax_right; lra).
  set (old := f_mass (n_content n) - from_content n dt).
  set (new := old +~ n_in n *~ dt -~ from_inflow n dt).
  assert (N : f_mass (n_content n) + n_in n * dt - from_content n dt - from_inflow n dt = new)
    by (unfold new, old; rnum; lra).
  rewrite N. cbv zeta. rewrite isentropic_expansion.
  assert (X : expansion pw n = expands pw (n_expsf n) (n_pp n) (f_p (n_content n)) (n_content n)) by reflexivity.
  rewrite X. clear X. generalize (expands pw (n_expsf n) (n_pp n) (f_p (n_content n)) (n_content n)). intros ed.
  set (first := if new <~ neps then _ else _).
  assert (F : fst first = Rmax Reps new).
  { unfold first. rnum. destruct (Rltb_spec new Reps); [rewrite Rmax_left by lra; reflexivity|].
    rewrite Rmax_right by lra. destruct (Rltb _ _); reflexivity. }
  clearbody first. destruct first as [new' h]. cbn [fst] in F. subst new'.
  set (mixed := if neps <~ nabs (n_in n *~ dt) then _ else _).
  assert (G : forall c, mixed = Ok c -> f_mass c = Rmax Reps new).
  { intros c. unfold mixed. clear mixed. destruct (neps <~ nabs (n_in n *~ dt)).
    - replace (neps <=~ new) with (Rleb Reps new) by reflexivity. destruct (Rleb_spec Reps new).
      + destruct (mix_masses _ _ _ _) as [[f q]| |] eqn:Q; try (intro; discriminate). intro J. injection J as <-.
        apply mix_mass in Q. rewrite Q, Rmax_right by lra. unfold new. rnum. lra.
      + destruct (mix_masses _ _ _ _) as [[f q]| |] eqn:Q; try (intro; discriminate). intro J. injection J as <-.
        apply mix_mass in Q. rewrite Q, Rmax_left by lra. rnum. lra.
    - intro J. injection J as <-. reflexivity. }
  clearbody mixed. destruct mixed as [cm| |]; try discriminate.
  specialize (G cm eq_refl). destruct (if n0 <~ n_dampmass n then _ else _) as [h' dm].
  intro J. injection J as <- _ <-. split; [exact G|reflexivity].
Qed.

(** Whatever is asked of a node with volume: its mass changes by what came in and what left,
    but it keeps at least the threshold mass; the net flow and the heat are those of the two
    parts that left; the flow of the outflow is what left of the contents, plus what passed
    through unless that is below the threshold; and the expansion is between the pressures. *)
Theorem C132_node : forall pw n dt n', 0 < dt -> 0 < n_vol n -> 0 <= n_sched n ->
  0 <= f_mole (n_content n) -> 0 < f_mw (n_content n) ->
  f_mass (n_content n) = f_mole (n_content n) * f_mw (n_content n) ->
  integrate_flows sqrt pw n dt = Ok n' ->
  let out := from_content n dt in
  let thru := from_inflow n dt in
  f_mass (n_content n') = Rmax Reps (f_mass (n_content n) + n_in n * dt - out - thru) /\
  n_net n' * dt = n_in n * dt - out - thru /\
  n_netheat n' * dt = n_heat n * dt - out * f_h (n_content n) - thru * f_h (n_inflow n) /\
  (thru = 0 -> 0 < out -> f_w (n_outflow n') * dt = out) /\
  (Reps * dt <= thru -> f_w (n_outflow n') * dt = out + thru) /\
  n_expdt n' = expands pw (n_expsf n) (n_pp n) (f_p (n_content n)) (n_content n).
Proof.
  intros pw n dt n' D V S M W E H. destruct (C132_amounts n dt D S M W E) as (A & B & _).
  cbv zeta. unfold integrate_flows in H. cbv zeta in H. revert H.
  unfold net_heat. rewrite out_mass_R, thru_mass_R, !per_time_R by exact D.
  replace (n0 <~ n_vol n) with true by (rnum; rewrite Rltb_true; auto).
  set (out := from_content n dt) in *. set (thru := from_inflow n dt) in *.
  assert (OD : out / dt * dt = out) by (field; lra). assert (TD : thru / dt * dt = thru) by (field; lra).
  assert (O0 : 0 <= out / dt) by (apply Rmult_le_pos; [lra|left; apply Rinv_0_lt_compat; lra]).
  assert (T0 : 0 <= thru / dt) by (apply Rmult_le_pos; [lra|left; apply Rinv_0_lt_compat; lra]).
  set (wc := out / dt) in *. set (wt := thru / dt) in *. clearbody wc wt.
  set (o0 := if n0 <~ wc then _ else _).
  assert (F0 : forall o, o0 = Ok o -> f_w o = wc).
  { intros o. unfold o0. rnum. destruct (Rltb_spec 0 wc) as [L|L].
    - unfold add_or_throw. destruct (snd _); [discriminate|]. cbn [obind]. intro J. injection J as <-. reflexivity.
    - intro J. injection J as <-. cbn [reset_state f_w n0 RNum]. lra. }
  clearbody o0. destruct o0 as [o| |]; cbn [obind]; try discriminate. specialize (F0 o eq_refl).
  destruct (integrate_cap sqrt pw n dt) as [[[c' damp] edt]| |] eqn:C; cbn [obind fst snd]; try discriminate.
  destruct (cap_mass pw n dt c' damp edt D S M W E C) as [C1 C2]. fold out thru in C1.
  set (o1 := if n0 <~ wt then _ else _).
  assert (F1 : forall x, o1 = Ok x -> (thru = 0 -> 0 < out -> f_w x = wc) /\ (Reps * dt <= thru -> f_w x = wc + wt)).
  { intros x. unfold o1. pose proof Reps_pos as RP. rnum. destruct (Rltb_spec 0 wt) as [L|L].
    - unfold add_or_throw, add_state. destruct (negb _); [discriminate|].
      replace (nabs wt <~ neps) with (Rltb wt Reps) by (rnum; rewrite Rabs_right by lra; reflexivity).
      destruct (Rltb_spec wt Reps) as [L2|L2].
      + intros _. split; intro Q; exfalso; nra.
      + destruct (nabs _ <~ neps); [discriminate|]. cbv zeta. cbn [fst snd]. intro J. injection J as <-.
        cbn [f_w]. rewrite F0. rnum. split; [intro; exfalso; nra|]. lra.
    - assert (wt = 0) by lra. assert (thru = 0) by nra.
      destruct (Rleb_spec wc 0) as [L2|L2].
      + intros _. split; [intros _ Q; exfalso; nra|intro Q; exfalso; nra].
      + intro J. injection J as <-. split; [intros; assumption|intro Q; exfalso; nra]. }
  clearbody o1. destruct o1 as [x| |]; cbn [obind]; try discriminate. destruct (F1 x eq_refl) as [G1 G2].
  intro J. injection J as <-. cbn [n_content n_net n_netheat n_outflow n_expdt]. 
  split; [exact C1|]. split; [rnum; nra|]. split; [rnum; nra|].
  cbn [set_pressure f_w]. split; [intros Q1 Q2; rewrite (G1 Q1 Q2); exact OD|].
  split; [intro Q; rewrite (G2 Q); nra|exact C2].
Qed.
Print Assumptions C132_node.

(** ** The pressures of an expansion *)
Lemma upd_static {B} (h : fnode R -> B) (g : fnode R -> fnode R) i l : (forall a, h (g a) = h a) ->
  map h (upd i g l) = map h l.
Proof. intro H. rewrite upd_eq. now apply upd_map. Qed.
Ltac dif := match goal with |- context [if ?b then _ else _] => destruct b end.
Section STATIC.
Variable B : Type.
Variable h : fnode R -> B.
Hypothesis h_sched : forall n x, h (schedule_outflux n x) = h n.
Hypothesis h_out : forall n x, h (collect_outflux n x) = h n.
Hypothesis h_in : forall n x f, h (collect_influx sqrt n x f) = h n.
Lemma compute_static (ks : list (fcond R)) : forall ns, map h (fold_left compute_flows ks ns) = map h ns.
Proof.
  induction ks as [|k ks IH]; intros ns; [reflexivity|]. cbn [fold_left]. rewrite IH. unfold compute_flows.
  dif; [now apply upd_static|]. dif; [now apply upd_static|reflexivity].
Qed.
Lemma transport_static g (ks : list (fcond R)) : forall ns ns', transport_all sqrt g ns ks = Some ns' -> map h ns' = map h ns.
Proof.
  induction ks as [|k ks IH]; intros ns ns' H; cbn [transport_all] in H; [now injection H as <-|].
  destruct (transport_flows sqrt g ns k) as [ns1|] eqn:E; [|discriminate]. rewrite (IH _ _ H). clear H IH.
  unfold transport_flows in E. destruct (nth_error _ _); [|discriminate]. destruct (nth_error _ _); [|discriminate].
  injection E as <-. dif; [|dif; [|reflexivity]];
    (rewrite upd_static by (intro; apply h_in)); now apply upd_static.
Qed.
End STATIC.
Lemma all_ok_nth {A B} (f : A -> outcome B) l : forall r i b, all_ok (map f l) = Ok r -> nth_error r i = Some b ->
  exists a, nth_error l i = Some a /\ f a = Ok b.
Proof.
  induction l as [|a l IH]; intros r i b H N; cbn [map all_ok] in H.
  - injection H as <-. destruct i; discriminate.
  - destruct (f a) as [x| |] eqn:F; try discriminate. destruct (all_ok (map f l)) as [t| |]; try discriminate.
    injection H as <-. destruct i as [|i]; cbn [nth_error] in *.
    + injection N as <-. now exists a.
    + exact (IH t i b eq_refl N).
Qed.
Lemma zip_nth {A B C} (f : A -> B -> C) l m : forall i c, nth_error (zip_with f l m) i = Some c ->
  exists a b, nth_error l i = Some a /\ nth_error m i = Some b /\ c = f a b.
Proof.
  revert m. unfold zip_with. induction l as [|a l IH]; intros [|b m] [|i] c H; cbn in *; try discriminate.
  - injection H as <-. now exists a, b.
  - exact (IH m i c H).
Qed.
(** In a step of the network the expansion of a node goes from the pressure it had to the one
    the solver finds. *)
Theorem C132_expansion : forall pw ns ps ks mid i n p m dt n',
  before_integration sqrt ns ps ks = Ok mid ->
  nth_error ns i = Some n -> nth_error ps i = Some p -> nth_error mid i = Some m ->
  0 < dt -> 0 < n_vol m -> 0 <= n_sched m -> 0 <= f_mole (n_content n) -> 0 < f_mw (n_content n) ->
  f_mass (n_content n) = f_mole (n_content n) * f_mw (n_content n) ->
  integrate_flows sqrt pw m dt = Ok n' ->
  n_expdt n' = expands pw (n_expsf n) (f_p (n_content n)) p (n_content n).
Proof.
  intros pw ns ps ks mid i n p m dt n' H Hn Hp Hm D V S M W E I.
  unfold before_integration in H. destruct (all_ok (map reset_flows ns)) as [n0| |] eqn:A; cbn [obind] in H; try discriminate.
  destruct (transport_all sqrt _ _ ks) as [n1|] eqn:T; [|discriminate]. injection H as ->.
  pose (h := fun x : fnode R => (n_pp x, n_expsf x, n_content x)).
  assert (Q : map h mid = map h (zip_with set_potential n0 ps)).
  { rewrite (transport_static _ h (fun _ _ => eq_refl) (fun _ _ _ => eq_refl) _ _ _ _ T).
    apply compute_static; reflexivity. }
  assert (Q2 : nth_error (map h (zip_with set_potential n0 ps)) i = Some (h m)) by (rewrite <- Q; now apply map_nth_error).
  destruct (nth_error (zip_with set_potential n0 ps) i) as [z|] eqn:Z.
  2: { exfalso. apply nth_error_None in Z. rewrite (proj2 (nth_error_None _ _)) in Q2; [discriminate|]. now rewrite map_length. }
  rewrite (map_nth_error h _ _ Z) in Q2. injection Q2 as Q3 Q4 Q5.
  apply zip_nth in Z. destruct Z as (a & b & Za & Zb & ->). rewrite Hp in Zb. injection Zb as <-.
  destruct (all_ok_nth _ _ _ _ _ A Za) as (n2 & N2 & R). rewrite Hn in N2. injection N2 as <-.
  unfold reset_flows in R. destruct (set_state _ _) as [o| |]; try discriminate. injection R as <-.
  cbn [set_potential n_pp n_expsf n_content] in Q3, Q4, Q5.
  assert (C : f_mole (n_content m) = f_mole (n_content n) /\ f_mw (n_content m) = f_mw (n_content n) /\
              f_mass (n_content m) = f_mass (n_content n)) by (rewrite <- Q5; repeat split).
  destruct C as (C1 & C2 & C3).
  destruct (C132_node pw m dt n' D V S) as (_ & _ & _ & _ & _ & X); try (rewrite ?C1, ?C2, ?C3; assumption).
  rewrite X, <- Q3, <- Q4, <- Q5. reflexivity.
Qed.
Print Assumptions C132_expansion.

(** ** An example: twice as much is asked for as there is, and nothing comes in *)
Definition exO : fnode R := mkfnode exE exE exE 1 1 0 0 0 0 0 0 0 100 300 0 0 1 0 0 6 0 0.
Example ex_overflow : exists n', integrate_flows sqrt (fun _ _ => 0) exO 1 = Ok n' /\
  overflowing exO 1 = true /\ from_content exO 1 = 8 /\ from_inflow exO 1 = 0 /\
  f_mass (n_content n') = Reps /\ n_net n' = -8 /\ f_w (n_outflow n') = 8.
Proof.
  pose proof Reps_pos as EP. pose proof Reps_small as ES.
  assert (M1 : f_mass exE = 8) by (cbn; lra). assert (M2 : f_mole exE = 3) by (cbn; lra).
  assert (M3 : f_mw exE = 8 / 3) by (cbn; lra).
  assert (OF : overflowing exO 1 = true).
  { unfold overflowing. cbn [exO n_content n_sched]. rewrite M2. rnum. apply Rltb_true. lra. }
  destruct (C132_amounts exO 1) as (_ & A2 & _ & A4 & _); cbn [exO n_content n_sched]; rewrite ?M1, ?M2, ?M3; try lra.
  specialize (A4 OF). change (n_content exO) with exE in A4. rewrite M1 in A4.
  assert (A5 : from_inflow exO 1 = 0) by (change (n_in exO) with 0 in A2; rewrite Rmax_left in A2 by lra; lra).
  assert (I : exists n', integrate_flows sqrt (fun _ _ => 0) exO 1 = Ok n').
  { unfold integrate_flows. cbv zeta. rewrite out_mass_R, thru_mass_R, !per_time_R, A4, A5 by lra.
    replace (8 / 1) with 8 by lra. replace (0 / 1) with 0 by lra.
    replace (n0 <~ 8) with true by (rnum; rewrite Rltb_true; auto; lra).
    replace (n0 <~ 0) with false by (rnum; rewrite Rltb_false; auto; lra).
    replace (8 <=~ n0) with false by (rnum; rewrite Rleb_false; auto; lra).
    replace (n0 <~ n_vol exO) with true by (cbn [exO n_vol]; rnum; rewrite Rltb_true; auto; lra).
    assert (AD : exists o, add_or_throw sqrt (reset_state (n_outflow exO)) (n_content exO) 8 = Ok o).
    { unfold add_or_throw, add_state. rewrite kind_same by (rewrite reset_kind; reflexivity). cbn [negb].
      replace (nabs 8 <~ neps) with false by (rnum; rewrite Rabs_right, Rltb_false by lra; reflexivity).
      cbn [reset_state f_w]. replace (n0 +~ 8) with 8 by (rnum; lra).
      replace (nabs 8 <~ neps) with false by (rnum; rewrite Rabs_right, Rltb_false by lra; reflexivity).
      cbv zeta. cbn [fst snd]. eexists. reflexivity. }
    destruct AD as [o ->]. cbn [obind].
    assert (CP : exists r, integrate_cap sqrt (fun _ _ => 0) exO 1 = Ok r).
    { unfold integrate_cap. cbv zeta. change (n_in exO) with 0.
      replace (nabs (0 *~ 1)) with 0 by (rnum; rewrite Rmult_0_l, Rabs_R0; reflexivity).
      replace (neps <~ 0) with false by (rnum; rewrite Rltb_false; auto; lra).
      dif; [|dif]; change (n_dampmass exO) with 0;
      (replace (n0 <~ 0) with false by (rnum; rewrite Rltb_false; auto; lra)); eexists; reflexivity. }
    destruct CP as [r ->]. cbn [obind]. replace (@n0 R RNum <~ 0) with false by (rnum; rewrite Rltb_false; auto; lra).
    cbn [obind]. eexists. reflexivity. }
  destruct I as [n' I]. exists n'. split; [exact I|]. split; [exact OF|]. split; [exact A4|]. split; [exact A5|].
  destruct (C132_node (fun _ _ => 0) exO 1 n') as (B1 & B2 & _ & B4 & _);
    try exact I; cbn [exO n_content n_sched n_vol]; rewrite ?M1, ?M2, ?M3; try lra.
  rewrite A4, A5 in *. change (n_content exO) with exE in B1. change (n_in exO) with 0 in B1, B2. rewrite M1 in B1.
  split; [rewrite B1; apply Rmax_left; lra|]. split; [lra|]. specialize (B4 eq_refl). lra.
Qed.
