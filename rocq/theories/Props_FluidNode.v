(** C113-: fluid nodes and closed networks of them. *)
From Coq Require Import Floats.
From Coq Require Import Reals Lra Lia List Arith Bool ZArith.
From Verif Require Import Num MathUtil Fluid Spec_Fluid Props_Fluid FluidNode Spec_FluidNode.
Import ListNotations.
Open Scope R_scope.

(** ** Kinds *)
Lemma kind_same f g : kind f = kind g -> same_types f g = true.
Proof.
  intro H. unfold same_types. destruct (list_eq_dec _ _ _) as [|E]; [reflexivity|]. exfalso. apply E.
  apply (f_equal (map fst)) in H. unfold kind in H. rewrite !map_map in H. exact H.
Qed.
Lemma kind_length f g : kind f = kind g -> length (f_cs f) = length (f_cs g).
Proof. intro H. apply (f_equal (@length _)) in H. unfold kind in H. now rewrite !map_length in H. Qed.
Lemma kind_pr f g : kind f = kind g -> map c_pr (f_cs f) = map c_pr (f_cs g).
Proof. intro H. apply (f_equal (map snd)) in H. unfold kind in H. now rewrite !map_map in H. Qed.
Lemma kind_split f g : map c_type (f_cs f) = map c_type (f_cs g) -> map c_pr (f_cs f) = map c_pr (f_cs g) ->
  kind f = kind g.
Proof.
  unfold kind. generalize (f_cs f) (f_cs g). induction l as [|c l IH]; intros [|d m] H1 H2; try discriminate; [reflexivity|].
  cbn [map] in *. injection H1 as E1 E2. injection H2 as E3 E4. rewrite E1, E3. f_equal. now apply IH.
Qed.
Lemma types_pr f g : map c_pr (f_cs f) = map c_pr (f_cs g) -> real_types f -> real_types g.
Proof.
  unfold real_types. intros H. rewrite !Forall_forall. intros HF c Hc.
  assert (In (c_pr c) (map c_pr (f_cs f))) by (rewrite H; now apply in_map).
  apply in_map_iff in H0. destruct H0 as [d [E Hd]]. rewrite <- E. exact (HF d Hd).
Qed.
Lemma reset_kind f : kind (reset_state f) = kind f.
Proof. unfold kind, reset_state. cbn [f_cs]. rewrite map_map. reflexivity. Qed.
Lemma reset_stream (f : fluid R) : stream (reset_state f).
Proof.
  constructor; unfold reset_state; cbn [f_w f_cs]; try (rnum; lra); try (now left);
    intros c Hc; apply in_map_iff in Hc; destruct Hc as [d [<- _]]; cbn; lra.
Qed.
Lemma set_state_ok (f src : fluid R) : kind f = kind src ->
  exists f', set_state f src = Ok f' /\ kind f' = kind f /\ f_mw f' = f_mw src /\ f_h f' = f_h src /\
    f_w f' = f_w src /\ map c_x (f_cs f') = map c_x (f_cs src) /\ map c_w (f_cs f') = map c_w (f_cs src).
Proof.
  intro H. unfold set_state. rewrite (kind_same _ _ H). eexists. split; [reflexivity|].
  pose proof (kind_length _ _ H) as HL. cbn [f_mw f_h f_w f_cs].
  split; [|repeat split].
  - apply kind_split; cbn [f_cs]; apply zip_map_fst; try exact HL; reflexivity.
  - rewrite (zip_map _ c_x (fun _ d => c_x d)) by reflexivity.
    clear H. revert HL. generalize (f_cs f) (f_cs src).
    induction l as [|c l IH]; intros [|d m] HL; try discriminate; [reflexivity|].
    unfold zip_with in *. cbn [combine map snd]. f_equal. apply IH. cbn in HL. lia.
  - rewrite (zip_map _ c_w (fun _ d => c_w d)) by reflexivity.
    clear H. revert HL. generalize (f_cs f) (f_cs src).
    induction l as [|c l IH]; intros [|d m] HL; try discriminate; [reflexivity|].
    unfold zip_with in *. cbn [combine map snd]. f_equal. apply IH. cbn in HL. lia.
Qed.

(** What mixing leaves alone. *)
Lemma mix_keep (out : fluid R) outm inn inm f' b : mix_masses out outm inn inm = Ok (f', b) ->
  f_cp f' = f_cp out /\ f_t f' = f_t out /\ f_p f' = f_p out /\ f_h f' = f_h out.
Proof.
  unfold mix_masses. destruct (inm +~ outm <~ neps); [discriminate|].
  destruct (normalize_array _) as [fr nm]. unfold set_mass_fractions.
  destruct (length fr <? length (f_cs out))%nat; [discriminate|].
  destruct (check_fractions _); [|discriminate]. intro H. injection H as <- _. repeat split.
Qed.
Lemma mass_fractions_type (f : fluid R) m fr f' : set_mass_fractions f m fr = Ok f' -> kind f' = kind f.
Proof.
  unfold set_mass_fractions. destruct (length fr <? length (f_cs f))%nat eqn:HL; [discriminate|].
  apply Nat.ltb_ge in HL. destruct (check_fractions _) as [xs|] eqn:HC; [|discriminate].
  intro H. injection H as <-. destruct (check_sum _ _ HC) as [_ [HX _]].
  assert (HLx : length (f_cs f) = length xs) by (rewrite HX, firstn_length; lia).
  apply kind_split; cbn [f_cs]; rewrite map_map; apply zip_map_fst; try exact HLx; reflexivity.
Qed.
Lemma mix_kind out outm inn inm f' b : mix_masses out outm inn inm = Ok (f', b) -> kind f' = kind out.
Proof.
  unfold mix_masses. destruct (inm +~ outm <~ neps); [discriminate|].
  destruct (normalize_array _) as [fr nm]. destruct (set_mass_fractions _ _ _) eqn:E; [|discriminate|discriminate].
  intro H. injection H as <- _. now apply mass_fractions_type in E.
Qed.
Lemma set_temperature_kind f t : kind (set_temperature f t) = kind f.
Proof. unfold kind, set_temperature. cbn [f_cs]. rewrite map_map. reflexivity. Qed.
Lemma set_mass_kind f t : kind (set_mass f t) = kind f.
Proof. unfold kind, set_mass. cbn [f_cs]. rewrite map_map. reflexivity. Qed.
Lemma temperature_same f t (h : R) : compute_temperature sqrt (set_temperature f t) h = compute_temperature sqrt f h.
Proof.
  unfold compute_temperature, fitA, fitB. cbn [set_temperature f_cs]. rewrite !xsum_R, !map_map. reflexivity.
Qed.

(** ** Amounts *)
Lemma calm_amounts n dt : 0 < dt -> sound n -> calm n dt ->
  out_moles n dt = n_sched n * dt /\ out_mass n dt = taken n * dt /\ thru_mass n dt = 0 /\
  per_time (out_mass n dt) dt = taken n /\ per_time (thru_mass n dt) dt = 0.
Proof.
  intros HD HS HC. pose proof (so_inflow _ HS) as HI. pose proof (so_rate _ HS) as HR.
  pose proof (str_w _ HI) as HW. pose proof (ca_drain _ _ HC) as HDr. pose proof Reps_pos as EP.
  assert (E1 : out_moles n dt = n_sched n * dt).
  { unfold out_moles, nmin. rnum. destruct (Rltb_spec (f_mole (n_content n)) (n_sched n * dt)); [lra|reflexivity]. }
  assert (E2 : out_mass n dt = taken n * dt) by (unfold out_mass, taken; rewrite E1; rnum; ring).
  assert (E3 : 0 <= in_moles n dt).
  { unfold in_moles, nmax. rnum. destruct (Rltb_spec Reps (f_mw (n_inflow n))); [|lra].
    apply Rmult_le_pos; [|left; apply Rinv_0_lt_compat; lra].
    apply Rmult_le_pos; [|lra]. destruct (Rltb_spec (n_in n) 0); lra. }
  assert (E4 : thru_mass n dt = 0).
  { unfold thru_mass, nmin. rewrite E1. revert E3. generalize (in_moles n dt). intros im E3. rnum.
    rewrite Rminus_eq_0. destruct (Rltb_spec 0 im); [lra|]. replace im with 0 by lra. lra. }
  repeat split; try assumption; unfold per_time; rewrite ?E2, ?E4; rnum;
    destruct (Rltb_spec 0 dt); try lra; field; lra.
Qed.

Lemma nth_combine_map {A B C} (g : A * B -> C) l m : map g (combine l m) = zip_with (fun a b => g (a, b)) l m.
Proof. unfold zip_with. apply map_ext. now intros [a b]. Qed.

(** ** C113: the mass and the species of a node with volume *)
Lemma cap_mixed n dt : 0 < dt -> sound n -> calm n dt ->
  exists c', (if neps <~ nabs (n_in n *~ dt) then
      match (if neps <=~ nmax n0 (f_mass (n_content n) -~ out_mass n dt) +~ n_in n *~ dt -~ thru_mass n dt
               then mix_masses (n_content n) (nmax n0 (f_mass (n_content n) -~ out_mass n dt)) (n_inflow n) (n_in n *~ dt -~ thru_mass n dt)
               else mix_masses (n_content n) n0 (n_inflow n) neps) with Ok (c', _) => Ok c' | Throws => Throws | Ub => Ub end
    else Ok (set_mass (n_content n) (mass_after n dt))) = Ok c' /\
  balanced c' /\ kind c' = kind (n_content n) /\ f_mass c' = mass_after n dt /\
  map c_mass (f_cs c') = species_after n dt /\ f_cp c' = f_cp (n_content n) /\ f_t c' = f_t (n_content n) /\
  f_p c' = f_p (n_content n) /\
  nmax n0 (f_mass (n_content n) -~ out_mass n dt) = f_mass (n_content n) - taken n * dt.
Proof.
  intros HD HS HC. destruct (calm_amounts n dt HD HS HC) as [E1 [E2 [E3 _]]].
  rewrite E2, E3. destruct HS as [SK SO ST SB SI SR]. destruct HC as [C1 C2 C3 C4 C5 C6].
  pose proof Reps_pos as EP. pose proof Reps_small as ES.
  assert (MW := balanced_mw _ ST SB).
  assert (HO : 0 <= f_mass (n_content n) - taken n * dt).
  { rewrite (bal_total _ SB). unfold taken. nra. }
  assert (EO : nmax n0 (f_mass (n_content n) -~ taken n * dt) = f_mass (n_content n) - taken n * dt).
  { rewrite max_R. rnum. now apply Rmax_right. }
  rewrite EO. set (old := f_mass (n_content n) - taken n * dt) in *.
  assert (EA : mass_after n dt = old + n_in n * dt) by (unfold mass_after, old; ring).
  pose proof (str_w _ SI) as W0. rewrite SR in W0.
  pose proof (kind_length _ _ SK) as HL.
  assert (ESP : species_after n dt =
                padd (species_of (n_content n) old) (species_of (n_inflow n) (n_in n * dt))).
  { unfold species_after, species_of. rewrite padd_zip, nth_combine_map. cbn [fst snd].
    unfold zip_with. apply map_ext_in. intros [c d] Hq. cbn [fst snd].
    pose proof (in_combine_l _ _ _ _ Hq) as Hc. rewrite (bal_mass _ SB c Hc). unfold old. ring. }
  destruct (Req_dec (n_in n) 0) as [Z|Z].
  - replace (neps <~ nabs (n_in n *~ dt)) with false
      by (rnum; rewrite Z, Rmult_0_l, Rabs_R0; destruct (Rltb_spec Reps 0); [lra|reflexivity]).
    destruct (C109_keep _ ST SB) as [K _]. destruct (K (mass_after n dt)) as [K1 [K2 [K3 K4]]].
    exists (set_mass (n_content n) (mass_after n dt)). split; [reflexivity|].
    split; [exact K1|]. split; [apply set_mass_kind|]. split; [exact K2|].
    split; [|repeat (split; [reflexivity|]); exact eq_refl].
    transitivity (map (fun x => x * mass_after n dt) (map c_x (f_cs (n_content n)))).
    + rewrite <- K4, map_map. apply map_ext_in. intros c Hc. rewrite (bal_mass _ K1 c Hc), K2. reflexivity.
    + unfold species_after. rewrite map_map, nth_combine_map. cbn [fst snd]. rewrite Z in *.
      transitivity (zip_with (fun (c _ : const R) => c_x c * mass_after n dt) (f_cs (n_content n)) (f_cs (n_inflow n))).
      * symmetry. rewrite <- (map_id (zip_with _ _ _)). apply zip_map_fst; [now symmetry|reflexivity].
      * rewrite <- (map_id (zip_with _ _ _)). apply zip_map. intros c d Hc _.
        rewrite (bal_mass _ SB c Hc). unfold mass_after. rewrite Z. ring.
  - destruct C4 as [C4|C4]; [contradiction|].
    replace (neps <~ nabs (n_in n *~ dt)) with true
      by (rnum; rewrite Rabs_right by nra; destruct (Rltb_spec Reps (n_in n * dt)); [reflexivity|lra]).
    replace (neps <=~ old +~ n_in n *~ dt -~ 0) with true
      by (rnum; rewrite Rminus_0_r, <- EA; destruct (Rleb_spec Reps (mass_after n dt)); [reflexivity|lra]).
    destruct (C112_mix (n_content n) old (n_inflow n) (n_in n *~ dt -~ 0) ST (eq_sym HL)) as [f' [M1 [M2 [M3 M4]]]].
    + exact (bal_x _ SB).
    + destruct (str_x _ SI) as [X|X]; [rewrite SR in X; contradiction|exact X].
    + intros c Hc. apply (bal_pos _ SB c Hc).
    + exact (str_pos _ SI).
    + exact HO.
    + rnum. nra.
    + rnum. rewrite Rminus_0_r, <- EA. exact C5.
    + rnum. rewrite Rminus_0_r, <- EA, <- ESP. exact C6.
    + rewrite M1. exists f'. split; [reflexivity|]. split; [exact M2|].
      split; [now apply mix_kind in M1|]. rnum. rewrite Rminus_0_r in *.
      split; [rewrite M3, EA; reflexivity|]. split; [rewrite M4; now symmetry|].
      apply mix_keep in M1. destruct M1 as [K1 [K2 [K3 _]]]. repeat split; assumption.
Qed.

Lemma isentropic_expansion pw n :
  isentropic_t pw (n_expsf n) (n_pp n) (f_p (n_content n)) (n_content n) -~ f_t (n_content n) = expansion pw n.
Proof.
  unfold isentropic_t, expansion. destruct (f_phase (n_content n)) as [[|k]|]; cbn [Nat.eqb andb]; rnum; try lra.
  unfold Rltb. destruct (Rlt_dec 0 (n_pp n)); cbn [andb]; [|lra].
  destruct (Rlt_dec Reps (f_p (n_content n) / n_pp n)); cbn [andb]; [|lra].
  destruct (Rlt_dec Reps (f_gam (n_content n))); lra.
Qed.

(** What the node's contents become: the temperature is that of the energy left. *)
Definition thermal_spec (pw : R -> R -> R) (n : fnode R) (dt : R) (c' : fluid R) (damp : R) : Prop :=
  exists h, f_t c' = compute_temperature sqrt c' h /\ damp * dt = damped n c' dt /\
    h * mass_after n dt = energy_after n dt - damped n c' dt
      + (f_mass (n_content n) - taken n * dt) * expansion pw n * f_cp (n_content n).

Lemma compute_h_same f t (u : R) : compute_h (set_temperature f t) u = compute_h f u.
Proof. unfold compute_h. cbn [set_temperature f_cs]. rewrite !xsum_R, map_map. reflexivity. Qed.

Lemma cap_ok pw n dt : 0 < dt -> sound n -> calm n dt ->
  exists c' damp edt, integrate_cap sqrt pw n dt = Ok (c', damp, edt) /\
    edt = expansion pw n /\ balanced c' /\ kind c' = kind (n_content n) /\
    f_mass c' = mass_after n dt /\ map c_mass (f_cs c') = species_after n dt /\
    f_p c' = f_p (n_content n) /\ (no_traces c' -> f_h c' = compute_h c' (f_t c')) /\
    (Reps <= energy_after n dt -> Reps < dt -> thermal_spec pw n dt c' damp).
Proof.
  intros HD HS HC. destruct (cap_mixed n dt HD HS HC) as [cm [EM [MB [MK [MM [MS [MCP [MT [MP EO]]]]]]]]].
  destruct (calm_amounts n dt HD HS HC) as [_ [E2 [E3 [E4 E5]]]].
  pose proof Reps_pos as EP. pose proof (ca_mass _ _ HC) as HM.
  pose proof (so_content _ HS) as SB. pose proof (so_types _ HS) as ST.
  assert (RT : real_types cm) by (apply (types_pr (n_content n)); [now apply kind_pr|exact ST]).
  unfold integrate_cap. cbn zeta. rewrite EO in EM |- *.
  assert (EN : (f_mass (n_content n) - taken n * dt) +~ n_in n *~ dt -~ thru_mass n dt = mass_after n dt).
  { rewrite E3. unfold mass_after. rnum. ring. }
  rewrite EN in EM |- *.
  replace (mass_after n dt <~ neps) with false
    by (rnum; destruct (Rltb_spec (mass_after n dt) Reps); [lra|reflexivity]).
  assert (EE : f_mass (n_content n) *~ f_h (n_content n) +~ net_heat n dt *~ dt = energy_after n dt).
  { unfold net_heat, energy_after. rewrite E4, E5. rnum. ring. }
  rewrite EE.
  set (hh := if energy_after n dt <~ neps then (mass_after n dt, f_h (n_content n))
             else (mass_after n dt, energy_after n dt /~ mass_after n dt)).
  assert (EH : hh = (mass_after n dt, if Rlt_dec (energy_after n dt) Reps then f_h (n_content n)
                                      else energy_after n dt / mass_after n dt)).
  { unfold hh. rnum. unfold Rltb. destruct (Rlt_dec (energy_after n dt) Reps); reflexivity. }
  rewrite EH. clear hh EH. rewrite EM. clear EM.
  rewrite isentropic_expansion.
  set (h0 := if Rlt_dec (energy_after n dt) Reps then f_h (n_content n) else energy_after n dt / mass_after n dt).
  set (hd := if n0 <~ n_dampmass n then _ else _).
  destruct hd as [h1 damp] eqn:EHD.
  eexists _, damp, _. split; [reflexivity|]. split; [reflexivity|].
  set (tn := compute_temperature sqrt cm _).
  destruct (C109_keep cm RT MB) as [_ [_ [KT _]]]. destruct (KT tn) as [K1 [K2 [K3 K4]]].
  split; [exact K1|]. split; [rewrite set_temperature_kind; exact MK|].
  split; [rewrite K2; exact MM|].
  split; [rewrite <- MS; unfold set_temperature; cbn [f_cs]; rewrite map_map; reflexivity|].
  split; [exact MP|]. split.
  { intro HN. rewrite compute_h_same. apply C110_set_temperature. unfold no_traces in *.
    cbn [set_temperature f_cs] in HN. rewrite Forall_map in HN. exact HN. }
  intros HE HDT. unfold thermal_spec.
  exists (h1 + (f_mass (n_content n) - taken n * dt) * expansion pw n * f_cp cm / mass_after n dt).
  split; [rewrite temperature_same; exact K3|].
  assert (EH0 : h0 * mass_after n dt = energy_after n dt).
  { unfold h0. destruct (Rlt_dec (energy_after n dt) Reps); [lra|]. field. lra. }
  clearbody h0. rewrite MCP.
  assert (ED : damp * dt = damped n (set_temperature cm tn) dt /\ h1 * mass_after n dt = energy_after n dt - damp * dt).
  { unfold damped. rewrite compute_h_same. subst hd. revert EHD. rewrite MT.
    generalize (compute_h cm (f_t (n_content n))). intros hm EHD.
    clear - EHD EH0 HE HDT HM EP HD. revert HE HM EH0 EHD.
    generalize (energy_after n dt), (mass_after n dt). intros e m HE HM EH0 EHD.
    rnum. unfold Rltb in EHD. destruct (Rlt_dec 0 (n_dampmass n)).
    - destruct (Rlt_dec Reps dt); [|lra]. injection EHD as <- <-. rewrite <- EH0.
      split; field; lra.
    - injection EHD as <- <-. split; [ring|rewrite EH0; ring]. }
  destruct ED as [ED1 ED2]. split; [exact ED1|]. rewrite <- ED1.
  replace ((h1 + (f_mass (n_content n) - taken n * dt) * expansion pw n * f_cp (n_content n) / mass_after n dt) * mass_after n dt)
    with (h1 * mass_after n dt + (f_mass (n_content n) - taken n * dt) * expansion pw n * f_cp (n_content n)) by (field; lra).
  rewrite ED2. ring.
Qed.

Lemma balanced_source n dt : sound n -> calm n dt -> n_sched n <> 0 ->
  Reps <= taken n /\ source (n_content n) (taken n).
Proof.
  intros HS HC H0. destruct (ca_out _ _ HC) as [H|[H1 H2]]; [contradiction|]. split; [exact H1|].
  pose proof (so_content _ HS) as SB. constructor; [exact (bal_x _ SB)|].
  intros c Hc. split; [now apply (bal_pos _ SB)|]. destruct (H2 c Hc) as [E|E]; [left|now right].
  split; [exact E|]. rewrite (bal_flow _ SB c Hc), E. ring.
Qed.

Lemma taken_sign n dt : sound n -> calm n dt -> (n_sched n = 0 /\ taken n = 0) \/ (n_sched n <> 0 /\ 0 < taken n).
Proof.
  intros HS HC. destruct (Req_dec (n_sched n) 0) as [E|E]; [left|right]; split; trivial.
  - unfold taken. rewrite E. ring.
  - pose proof Reps_pos. destruct (balanced_source n dt HS HC E). lra.
Qed.

(** The outflow of the node after an integration. *)
Definition outflow_spec (n : fnode R) (o c' : fluid R) : Prop :=
  f_p o = f_p c' /\ kind o = kind (n_content n) /\
  (0 < taken n -> f_w o = taken n /\ f_h o = f_h (n_content n) /\
                  map c_x (f_cs o) = map c_x (f_cs (n_content n))) /\
  (taken n = 0 -> f_h o = f_h c' /\ map c_x (f_cs o) = map c_x (f_cs c')).

Theorem C113_balance : forall pw n dt, 0 < dt -> 0 < n_vol n -> sound n -> calm n dt ->
  exists n', integrate_flows sqrt pw n dt = Ok n' /\ sound n' /\
    kind (n_content n') = kind (n_content n) /\
    f_mass (n_content n') = f_mass (n_content n) + (n_in n - n_sched n * f_mw (n_content n)) * dt /\
    map c_mass (f_cs (n_content n')) = species_after n dt /\
    n_net n' = n_in n - n_sched n * f_mw (n_content n) /\
    n_vol n' = n_vol n /\ n_in n' = n_in n /\ n_sched n' = n_sched n /\ n_inflow n' = n_inflow n /\
    f_p (n_content n') = f_p (n_content n) /\
    n_merr n' = f_mass (n_content n') - f_rho (n_content n') * n_vol n /\
    outflow_spec n (n_outflow n') (n_content n') /\
    n_expdt n' = expansion pw n /\
    (no_traces (n_content n') -> f_h (n_content n') = compute_h (n_content n') (f_t (n_content n'))) /\
    (Reps <= energy_after n dt -> Reps < dt ->
     thermal_spec pw n dt (n_content n') (n_dampheat n')).
Proof.
  intros pw n dt HD HV HS HC. pose proof Reps_pos as EP.
  destruct (calm_amounts n dt HD HS HC) as [_ [E2 [E3 [E4 E5]]]].
  destruct (cap_ok pw n dt HD HS HC) as [c' [damp [edt [EC [ED [B' [K' [M' [S' [P' [HH TH]]]]]]]]]]].
  unfold integrate_flows. cbn zeta. rewrite E4, E5, EC.
  replace (n0 <~ n_vol n) with true by (rnum; destruct (Rltb_spec 0 (n_vol n)); [reflexivity|lra]).
  cbn [obind fst snd].
  replace (@n0 R _ <~ 0) with false by (rnum; destruct (Rltb_spec 0 0); [lra|reflexivity]).
  pose proof (so_out _ HS) as SO. pose proof (so_types _ HS) as ST.
  assert (HO : exists o0, obind (if n0 <~ taken n
         then obind (add_or_throw sqrt (reset_state (n_outflow n)) (n_content n) (taken n)) (fun o => Ok (set_flow o (taken n)))
         else Ok (reset_state (n_outflow n))) (fun out => if taken n <=~ n0 then set_state out c' else Ok out) = Ok o0 /\
       outflow_spec n (set_pressure o0 (f_p c')) c').
  { destruct (taken_sign n dt HS HC) as [[E0 E1]|[E0 E1]].
    - rewrite E1. replace (@n0 R _ <~ 0) with false by (rnum; destruct (Rltb_spec 0 0); [lra|reflexivity]).
      cbn [obind]. replace (0 <=~ @n0 R _) with true by (rnum; destruct (Rleb_spec 0 0); [reflexivity|lra]).
      destruct (set_state_ok (reset_state (n_outflow n)) c') as [o [Eo [o1 [o2 [o3 [o4 [o5 _]]]]]]].
      { now rewrite reset_kind, K'. }
      exists o. split; [exact Eo|]. split; [reflexivity|].
      split; [change (kind o = kind (n_content n)); now rewrite o1, reset_kind|].
      split; [intro; lra|]. intros _. split; [exact o3|exact o5].
    - destruct (balanced_source n dt HS HC E0) as [H1 H2].
      destruct (C111_add (reset_state (n_outflow n)) (n_content n) (taken n)) as [A1 [A2 [A3 [A4 [A5 [_ [_ [_ [A6 [A7 _]]]]]]]]]].
      { apply kind_same. now rewrite reset_kind. }
      { apply (types_pr (n_content n)); [|exact ST]. apply kind_pr. now rewrite reset_kind. }
      { apply reset_stream. } { exact H2. } { exact H1. }
      unfold add_or_throw. rewrite A1.
      replace (n0 <~ taken n) with true by (rnum; destruct (Rltb_spec 0 (taken n)); [reflexivity|lra]).
      cbn [obind]. replace (taken n <=~ n0) with false by (rnum; destruct (Rleb_spec (taken n) 0); [lra|reflexivity]).
      set (o := fst (add_state sqrt (reset_state (n_outflow n)) (n_content n) (taken n))) in *.
      exists (set_flow o (taken n)). split; [reflexivity|]. split; [reflexivity|].
      assert (KO : kind o = kind (n_content n)).
      { rewrite <- SO, <- (reset_kind (n_outflow n)). apply kind_split; assumption. }
      split. { rewrite <- KO. unfold kind, set_flow, set_pressure. cbn [f_cs]. rewrite !map_map. reflexivity. }
      split; [|intro; lra]. intros _. split; [reflexivity|].
      change (f_w (reset_state (n_outflow n))) with 0 in A3, A5. change (f_h (reset_state (n_outflow n))) with 0 in A5.
      rewrite A3 in A5. split. { change (f_h o = f_h (n_content n)). nra. }
      assert (EX : map c_x (f_cs (set_pressure (set_flow o (taken n)) (f_p c'))) = map c_x (f_cs o)).
      { unfold set_flow, set_pressure. cbn [f_cs]. rewrite !map_map. reflexivity. }
      rewrite EX. clear EX.
      assert (EW : map (fun x => taken n * x) (map c_x (f_cs o)) = map (fun x => taken n * x) (map c_x (f_cs (n_content n)))).
      { rewrite !map_map. transitivity (species_flow o).
        - apply map_ext_in. intros c Hc. rewrite (str_flow _ A2 c Hc), A3. ring.
        - rewrite A4. unfold species_flow, species_of, padd. clear - SO.
          assert (HL := kind_length _ _ SO). rewrite <- (map_length c_type), map_length in HL.
          unfold reset_state. cbn [f_cs]. rewrite map_map. revert HL. generalize (f_cs (n_outflow n)) (f_cs (n_content n)).
          induction l as [|c l IH]; intros [|d m] HL; try discriminate; [reflexivity|].
          cbn [map combine fst snd c_w]. f_equal; [rnum; ring|]. apply IH. cbn in HL. lia. }
      revert EW. generalize (map c_x (f_cs o)) (map c_x (f_cs (n_content n))).
      induction l as [|x l IH]; intros [|y m] EW; try discriminate; [reflexivity|].
      cbn [map] in EW. injection EW as W1 W2. f_equal; [nra|]. now apply IH. }
  destruct HO as [o0 [HO1 HO2]].
  destruct (if n0 <~ taken n then _ else _) as [o1| |]; cbn [obind] in HO1 |- *; [|discriminate|discriminate].
  rewrite HO1. cbn [obind]. eexists. split; [reflexivity|].
  cbn [n_content n_net n_vol n_in n_sched n_inflow n_merr n_outflow n_expdt n_dampheat].
  split.
  { constructor; cbn [n_inflow n_content n_outflow n_in].
    - rewrite K'. apply HS.
    - rewrite K'. apply HO2.
    - apply (types_pr (n_content n)); [|exact ST]. now apply kind_pr.
    - exact B'.
    - apply HS.
    - apply HS. }
  split; [exact K'|]. split; [exact M'|]. split; [exact S'|].
  split; [unfold taken; rnum; ring|]. do 4 (split; [reflexivity|]).
  split; [exact P'|]. split; [reflexivity|]. split; [exact HO2|]. split; [exact ED|]. split; [exact HH|exact TH].
Qed.

(** ** C114: its energy *)
Theorem C114_energy : forall pw n dt n', 0 < dt -> 0 < n_vol n -> sound n -> calm n dt ->
  Reps < dt -> Reps <= energy_after n dt ->
  integrate_flows sqrt pw n dt = Ok n' ->
  let c' := n_content n' in
  let e' := energy_after n dt - damped n c' dt
            + (f_mass (n_content n) - taken n * dt) * expansion pw n * f_cp (n_content n) in
  no_traces c' -> heat_b c' <> 0 -> in_range c' (f_t c') ->
  0 <= heat_a c' * heat_a c' + 4 * heat_b c' * (e' / f_mass c') ->
  f_mass c' * f_h c' = e' /\ n_dampheat n' * dt = damped n c' dt.
Proof.
  intros pw n dt n' HD HV HS HC HDT HE EI. cbn zeta. intros HN HB HR HP.
  destruct (C113_balance pw n dt HD HV HS HC) as
    [n'' [EI' [_ [_ [M' [_ [_ [_ [_ [_ [_ [_ [_ [_ [_ [HH TH]]]]]]]]]]]]]]]].
  rewrite EI in EI'. injection EI' as <-. destruct (TH HE HDT) as [h [T1 [T2 T3]]].
  split; [|exact T2]. rewrite <- T3 in HP |- *. fold (taken n) in M'. fold (mass_after n dt) in M'.
  pose proof (ca_mass _ _ HC). pose proof Reps_pos. rewrite M' in HP |- *.
  replace (h * mass_after n dt / mass_after n dt) with h in HP by (field; lra).
  rewrite (HH HN). rewrite T1 in HR |- *. rewrite (C110_enthalpy _ _ HB HP HR). ring.
Qed.

Print Assumptions C113_balance.
Print Assumptions C114_energy.
