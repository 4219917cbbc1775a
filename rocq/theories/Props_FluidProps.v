(** The derived properties of mixtures (C126) and the functions that edit them (C127). *)
From Coq Require Import Floats.
From Coq Require Import Reals Bool ZArith Lra Lia List Psatz.
From Verif Require Import Num MathUtil Fluid Spec_Fluid Props_Fluid Spec_FluidProps.
Import ListNotations.
Open Scope R_scope.

Lemma ysum_over g (f : fluid R) : ysum g (f_cs f) = over g f.
Proof.
  rewrite ysum_R. unfold over, total. apply rsum_ext. intros c _. unfold Rltb.
  now destruct (Rlt_dec Reps (Rabs (c_y c))).
Qed.
Lemma xsum_over g (f : fluid R) : xsum g (f_cs f) = over_x g f.
Proof.
  rewrite xsum_R. unfold over_x, total. apply rsum_ext. intros c _. unfold Rltb.
  now destruct (Rlt_dec Reps (Rabs (c_x c))).
Qed.
Lemma over_ext g h (f : fluid R) : (forall c, In c (f_cs f) -> g c = h c) -> over g f = over h f.
Proof. intro H. apply rsum_ext. intros c I. now rewrite H. Qed.

(** The fields set from the property loops. *)
Lemma derived_loops f :
  (forall c, In c (f_cs f) -> c_t c = f_t f /\ c_p c = c_y c * f_p f) ->
  f_rho f = cs_rho (f_cs f) -> f_visc f = cs_visc (f_cs f) -> f_cp f = cs_cp (f_cs f) ->
  f_h f = cs_cp (f_cs f) * f_t f -> f_k f = cs_k (f_cs f) -> f_pr f = cs_pr (f_cs f) ->
  f_gam f = cs_gam (f_cs f) -> derived f.
Proof.
  intros HC E1 E2 E3 E4 E5 E6 E7. split; [exact HC| | | |rewrite E3; exact E4| | |];
    rewrite ?E1, ?E2, ?E3, ?E5, ?E6, ?E7;
    unfold cs_rho, cs_visc, cs_cp, cs_k, cs_pr, cs_gam; rewrite ysum_over; apply over_ext;
    intros c I; destruct (HC c I) as [X1 X2]; rewrite ?X1, ?X2; rnum; ring.
Qed.

Theorem C126_set_temperature : forall f t, derived (set_temperature f t).
Proof.
  intros f t. apply derived_loops; try reflexivity.
  intros c I. unfold set_temperature in I. cbn [f_cs] in I. apply in_map_iff in I as (d & <- & _).
  cbn [cset_p cset_t c_t c_p c_y set_temperature f_t f_p nmul RNum]. split; [reflexivity|ring].
Qed.
Print Assumptions C126_set_temperature.

Theorem C126_initialize : forall types i f, initialize types i = Ok f -> derived f.
Proof.
  intros types i f. unfold initialize.
  destruct (length types <? 1)%nat; [discriminate|].
  destruct ((i_t i <~ flt_eps) || (i_p i <~ flt_eps)); [discriminate|].
  destruct (check_fractions (map snd types)) as [xs|]; [|discriminate].
  match goal with |- context [one_phase ?cs] => destruct (one_phase cs) as [ph|]; [|discriminate] end.
  intro H. injection H as <-. apply derived_loops; try reflexivity.
  cbn [f_cs f_t f_p]. intros c I. apply in_map_iff in I as (d & <- & I).
  apply in_map_iff in I as (e & <- & _). cbn. split; reflexivity.
Qed.
Print Assumptions C126_initialize.

(** The pressure changes the density only, to the one computed for the new pressure;
    computeDensity is the density the fluid would have. *)
Theorem C126_density : forall f,
  (forall p, f_rho (set_pressure f p) = compute_rho f (f_t f) p /\
             f_cs (set_pressure f p) = f_cs f /\ f_t (set_pressure f p) = f_t f /\
             f_visc (set_pressure f p) = f_visc f /\ f_cp (set_pressure f p) = f_cp f /\
             f_h (set_pressure f p) = f_h f /\ f_k (set_pressure f p) = f_k f /\
             f_pr (set_pressure f p) = f_pr f /\ f_gam (set_pressure f p) = f_gam f) /\
  (forall t p, compute_rho f t p = over (fun c => p_rho (c_pr c) t (c_y c * p)) f) /\
  (forall t, f_rho (set_temperature f t) = compute_rho f t (f_p f)).
Proof.
  intro f. split; [|split].
  - intro p. repeat (split; [reflexivity|]). reflexivity.
  - intros t p. unfold compute_rho. rewrite ysum_over. apply over_ext. intros c _. rnum.
    now rewrite (Rmult_comm p).
  - intro t. unfold compute_rho, set_temperature, cs_rho. cbn [f_rho].
    rewrite !ysum_R, map_map. apply rsum_ext. intros c _. reflexivity.
Qed.
Print Assumptions C126_density.

(** In a mixture of ideal gases the pressure computed from the density is the pressure
    the density was computed from. *)
Theorem C126_ideal_mixture : forall r f t p,
  0 < r -> 0 < t -> 0 < f_mw f ->
  (forall c, In c (f_cs f) -> ideal r (c_pr c) /\ 0 < p_mw (c_pr c) /\
     (c_x c = 0 /\ c_y c = 0 \/ Reps < c_x c /\ Reps < c_y c /\ Reps <= c_y c * p)) ->
  (forall c, In c (f_cs f) -> c_x c * f_mw f = c_y c * p_mw (c_pr c)) ->
  total (@c_x R) f = 1 -> total (@c_y R) f = 1 ->
  compute_rho f t p = f_mw f / r * p / t /\
  compute_p f t (compute_rho f t p) = p.
Proof.
  intros r f t p R0 T0 M0 HC HX Z HY. pose proof Reps_pos as EP.
  assert (RHO : compute_rho f t p = f_mw f / r * p / t).
  { transitivity (total (@c_x R) f * (f_mw f / r * p / t)); [|rewrite Z; ring].
    destruct (C126_density f) as (_ & E & _). rewrite E. unfold over, total.
    rewrite <- rsum_scale_r. apply rsum_ext. intros c I. specialize (HX c I).
    destruct (HC c I) as ((D & _) & W & [[X Y] | (X & Y & _)]).
    - rewrite Y, X, Rabs_R0. destruct (Rlt_dec Reps 0); [lra|ring].
    - rewrite (Rabs_pos_eq (c_y c)) by lra. destruct (Rlt_dec Reps (c_y c)); [|lra].
      rewrite D. replace (p_mw (c_pr c) / r * (c_y c * p) / t) with (c_y c * p_mw (c_pr c) * (p / (r * t))) by (field; lra).
      rewrite <- HX. field. lra. }
  split; [exact RHO|]. rewrite RHO.
  transitivity (total (@c_y R) f * p); [|rewrite HY; ring].
  unfold compute_p. rewrite xsum_over. unfold over_x, total.
  rewrite <- rsum_scale_r. apply rsum_ext. intros c I. specialize (HX c I).
  destruct (HC c I) as ((_ & D) & W & [[X Y] | (X & Y & Q)]).
  - rewrite X, Y, Rabs_R0. destruct (Rlt_dec Reps 0); [lra|ring].
  - rewrite (Rabs_pos_eq (c_x c)) by lra. destruct (Rlt_dec Reps (c_x c)); [|lra].
    unfold press. rewrite D. rnum. unfold Rltb.
    assert (E : r / p_mw (c_pr c) * t * (f_mw f / r * p / t * c_x c) = c_y c * p).
    { replace (r / p_mw (c_pr c) * t * (f_mw f / r * p / t * c_x c))
        with (c_x c * f_mw f / p_mw (c_pr c) * p) by (field; lra).
      rewrite HX. field. lra. }
    rewrite E. destruct (Rlt_dec (c_y c * p) Reps); lra.
Qed.
Print Assumptions C126_ideal_mixture.

(** The pressure of two flows at one pressure should be that pressure.  The function
    weights the partial pressures with the mole fractions instead of adding them, so that
    two equal flows of half helium and half nitrogen at 100 kPa have 50 kPa. *)
Theorem C126_add_pressure_refuted : exists f,
  initialize [(0%nat, heF, (0.12500000000000000)%float); (1%nat, n2F, (0.875)%float)]
    (mkfluidin (300)%float (100)%float (1)%float (0)%float) = Ok f /\
  f_p f = (100)%float /\ f_p (fst (add_state PrimFloat.sqrt f f (1)%float)) <~ (51)%float = true /\
  snd (add_state PrimFloat.sqrt f f (1)%float) = false.
Proof.
  match goal with |- exists f, ?l = _ /\ _ =>
    let F := eval vm_compute in l in
    match F with Ok ?F => exists F end end.
  split; [vm_compute; reflexivity|]. vm_compute. auto.
Qed.
Print Assumptions C126_add_pressure_refuted.

(** The other properties after addState, at the constituents' own pressures. *)
Theorem C126_add_state : forall f src flow, snd (add_state sqrt f src flow) = false ->
  let f' := fst (add_state sqrt f src flow) in
  f_rho f' = over (fun c => p_rho (c_pr c) (f_t f') (c_p c)) f' /\
  f_visc f' = over (fun c => c_y c * p_visc (c_pr c) (f_t f') (c_p c)) f' /\
  f_cp f' = over (fun c => c_x c * cp (c_pr c) (f_t f')) f' /\
  f_k f' = over (fun c => c_x c * p_k (c_pr c) (f_t f') (c_p c)) f' /\
  f_pr f' = over (fun c => c_y c * p_pr (c_pr c) (f_t f') (c_p c)) f' /\
  f_gam f' = over (fun c => c_y c * p_gam (c_pr c) (f_t f') (c_p c)) f' /\
  f_p f' = total (fun c => c_p c * c_y c) f'.
Proof.
  intros f src flow. unfold add_state. destruct (negb (same_types f src)); [discriminate|].
  cbv zeta. set (sw := if nabs flow <~ neps then f_w src else flow). clearbody sw.
  destruct (nabs (f_w f +~ sw) <~ neps); [discriminate|].
  intros _. cbn [fst].
  match goal with |- context [mkfluid ?t ?p ?w ?m ?n ?ph ?mw ?rho ?vi ?c ?h ?k ?pr ?g ?cs] =>
         set (f' := mkfluid t p w m n ph mw rho vi c h k pr g cs) end.
  assert (HC : forall c, In c (f_cs f') -> c_t c = f_t f')
         by (intros c I; unfold f' in I; cbn [f_cs] in I; apply in_map_iff in I as (d & <- & _); reflexivity).
  change (f_rho f') with (cs_rho (f_cs f')); change (f_visc f') with (cs_visc (f_cs f'));
       change (f_cp f') with (cs_cp (f_cs f')); change (f_k f') with (cs_k (f_cs f'));
       change (f_pr f') with (cs_pr (f_cs f')); change (f_gam f') with (cs_gam (f_cs f')).
  unfold cs_rho, cs_visc, cs_cp, cs_k, cs_pr, cs_gam; rewrite !ysum_over.
  repeat match goal with |- _ /\ _ => split end;
       try (apply over_ext; intros c I; rewrite (HC c I); rnum; ring).
  unfold total, f'; cbn [f_p f_cs]; rewrite tsum_R, !map_map; reflexivity.
Qed.
Print Assumptions C126_add_state.

(** ** C127: edits *)
Theorem C127_edit : forall (f : fluid R) t p,
  let f' := edit f t p in
  f_t f' = Rmax 0 t /\ f_p f' = Rmax 0 p /\ derived f' /\
  f_mass f' = f_mass f /\ f_mole f' = f_mole f /\ f_w f' = f_w f /\ f_mw f' = f_mw f /\
  map c_x (f_cs f') = map c_x (f_cs f) /\ map c_y (f_cs f') = map c_y (f_cs f) /\
  map c_mass (f_cs f') = map c_mass (f_cs f) /\ map c_mole (f_cs f') = map c_mole (f_cs f).
Proof.
  intros f t p. cbn zeta.
  assert (MX : forall a : R, nmax n0 a = Rmax 0 a).
  { intro a. unfold nmax, Rmax. rnum. unfold Rltb. destruct (Rlt_dec 0 a), (Rle_dec 0 a); lra. }
  unfold edit. split; [apply MX|]. split; [apply MX|]. split; [apply C126_set_temperature|].
  repeat (split; [reflexivity|]). unfold set_temperature, with_p. cbn [f_cs]. rewrite !map_map.
  repeat (split; [reflexivity|]). reflexivity.
Qed.
Print Assumptions C127_edit.

Lemma max0 : forall a : R, nmax n0 a = Rmax 0 a.
Proof. intro a. unfold nmax, Rmax. rnum. unfold Rltb. destruct (Rlt_dec 0 a), (Rle_dec 0 a); lra. Qed.
Lemma fold_max (l : list R) : fold_left (fun acc q => acc +~ nmax n0 q) l n0 = rsum (map (Rmax 0) l).
Proof.
  rewrite <- (fold_nadd_R (map (Rmax 0) l)).
  assert (H : forall a : R, fold_left (fun acc q => acc +~ nmax n0 q) l a = fold_left nadd (map (Rmax 0) l) a).
  { induction l as [|q l IH]; intro a; [reflexivity|]. cbn [fold_left map]. rewrite IH, max0. reflexivity. }
  apply H.
Qed.
Theorem C127_edit_partial : forall (f : fluid R) t pp,
  (length (f_cs f) <= length pp)%nat -> real_types f ->
  let given := map (Rmax 0) (firstn (length (f_cs f)) pp) in
  exists f', edit_partial f t pp = Ok f' /\ derived f' /\
  f_t f' = Rmax 0 t /\ f_p f' = rsum given /\ f_mole f' = f_mole f /\ f_w f' = f_w f /\
  (fltR <= rsum given -> map c_y (f_cs f') = map (fun q => q / rsum given) given /\ balanced f') /\
  (rsum given < fltR -> map c_y (f_cs f') = map c_y (f_cs f) /\ map c_x (f_cs f') = map c_x (f_cs f)).
Proof.
  intros f t pp HL HR given. pose proof flt_pos as [F1 F2]. unfold edit_partial.
  rewrite (proj2 (Nat.ltb_ge _ _)) by exact HL. rewrite fold_max. fold given. cbn zeta.
  set (p := rsum given). set (f1 := set_temperature (with_p f p) (nmax n0 t)).
  assert (LT : (p <~ flt_eps) = Rltb p fltR) by (rewrite flt_val; reflexivity).
  rewrite LT. destruct (Rltb_spec p fltR) as [C | C].
  - exists f1. split; [reflexivity|]. split; [apply C126_set_temperature|].
    split; [apply max0|]. repeat (split; [reflexivity|]). split; [intro; lra|]. intros _.
    unfold f1, set_temperature, with_p. cbn [f_cs]. rewrite !map_map. split; reflexivity.
  - assert (P0 : 0 < p) by lra.
    set (fr := map (fun q => nmax n0 q /~ p) (firstn (length (f_cs f)) pp)).
    assert (FR : fr = map (fun q => q / p) given).
    { unfold fr, given. rewrite map_map. apply map_ext. intro q. rewrite max0. reflexivity. }
    assert (L1 : length (f_cs f1) = length (f_cs f)) by (unfold f1, set_temperature, with_p; cbn [f_cs]; apply map_length).
    assert (LF : length fr = length (f_cs f)).
    { unfold fr. rewrite map_length, firstn_length. lia. }
    assert (FN : firstn (length (f_cs f1)) fr = fr) by (rewrite L1, <- LF; apply firstn_all).
    assert (SUM : rsum fr = 1).
    { rewrite FR. unfold Rdiv. rewrite rsum_scale_r. rewrite rsum_map_id. fold p. field. lra. }
    assert (R1 : real_types f1).
    { unfold real_types in *. rewrite Forall_forall in *. intros c I.
      unfold f1, set_temperature, with_p in I. cbn [f_cs] in I. apply in_map_iff in I as (d & <- & I).
      exact (HR d I). }
    destruct (C109_mole_fractions f1 (f_mole f1) fr R1) as [_ K].
    + rewrite L1, LF. auto.
    + rewrite FN, FR. apply Forall_forall. intros x I. apply in_map_iff in I as (q & <- & I).
      unfold given in I. apply in_map_iff in I as (z & <- & _).
      apply Rmult_le_pos; [apply Rmax_l|left; now apply Rinv_0_lt_compat].
    + rewrite FN, SUM in K. replace (1 - 1) with 0 in K by lra. rewrite Rabs_R0 in K.
      destruct K as (f2 & E & B & M & PR & W & Y); [lra|]. rewrite E.
      exists (set_temperature f2 (nmax n0 t)). split; [reflexivity|]. split; [apply C126_set_temperature|].
      split; [apply max0|].
      assert (R2 : real_types f2).
      { unfold real_types in *. rewrite Forall_forall in *. intros c I.
        assert (I' : In (c_pr c) (map c_pr (f_cs f1))) by (rewrite <- PR; now apply in_map).
        apply in_map_iff in I' as (d & Q & I'). rewrite <- Q. now apply R1. }
      assert (P2 : f_p f2 = f_p f1).
      { unfold set_mole_fractions in E. destruct (length fr <? length (f_cs f1))%nat; [discriminate|].
        destruct (check_fractions _); [|discriminate]. now injection E as <-. }
      split; [exact P2|]. split; [exact M|]. split; [exact W|].
      split; [|intro; lra]. intros _. split.
      * unfold set_temperature. cbn [f_cs]. rewrite map_map. cbn [cset_p cset_t c_y].
        destruct (Rlt_dec fltR 0); [lra|]. rewrite FR in Y. exact Y.
      * destruct (C109_keep f2 R2 B) as (_ & _ & K & _). apply K.
Qed.
Print Assumptions C127_edit_partial.

Theorem C127_set_mass : forall (f : fluid R) i m,
  ((i < 0 \/ Z.of_nat (length (f_cs f)) <= i)%Z -> set_mass_i f i m = Throws) /\
  ((0 <= i < Z.of_nat (length (f_cs f)))%Z -> exists f', set_mass_i f i m = Ok f' /\
     length (f_cs f') = length (f_cs f) /\
     (forall j c, nth_error (f_cs f) j = Some c -> exists c', nth_error (f_cs f') j = Some c' /\
        if Nat.eqb j (Z.to_nat i)
        then c_mass c' = m /\ c_mole c' = m / p_mw (c_pr c) /\ c_pr c' = c_pr c /\
             c_x c' = c_x c /\ c_y c' = c_y c /\ c_t c' = c_t c /\ c_p c' = c_p c /\ c_w c' = c_w c
        else c' = c) /\
     f_mass f' = f_mass f /\ f_mole f' = f_mole f /\ f_mw f' = f_mw f /\ f_t f' = f_t f /\
     f_p f' = f_p f /\ f_w f' = f_w f /\ f_rho f' = f_rho f /\ f_h f' = f_h f).
Proof.
  intros f i m. unfold set_mass_i. split.
  - intro H. replace ((i <? 0)%Z || (Z.of_nat (length (f_cs f)) <=? i)%Z) with true; [reflexivity|].
    symmetry. apply orb_true_iff. destruct H; [left; now apply Z.ltb_lt|right; now apply Z.leb_le].
  - intro H. replace ((i <? 0)%Z || (Z.of_nat (length (f_cs f)) <=? i)%Z) with false.
    2:{ symmetry. apply orb_false_iff. split; [apply Z.ltb_ge|apply Z.leb_gt]; lia. }
    eexists. split; [reflexivity|]. cbn [with_cs f_cs f_mass f_mole f_mw f_t f_p f_w f_rho f_h].
    set (k := Z.to_nat i). clear H. clearbody k.
    split; [|split].
    + generalize (f_cs f), k. clear. induction l as [|c l IH]; intros [|k]; cbn; auto.
    + generalize (f_cs f), k. clear. induction l as [|c l IH]; intros [|k] [|j] d; cbn; intro E;
        try discriminate E.
      * injection E as <-. eexists. split; [reflexivity|]. cbn. auto 10.
      * exists d. auto.
      * injection E as <-. exists c. auto.
      * exact (IH k j d E).
    + repeat (split; [reflexivity|]). reflexivity.
Qed.
Print Assumptions C127_set_mass.

(** *** What initialize refuses *)
Definition there (c : const R) : Prop := Reps < Rabs (c_x c).
Lemma one_phase_R cs :
  match one_phase cs with
  | None => exists c d, In c cs /\ In d cs /\ there c /\ there d /\ p_phase (c_pr c) <> p_phase (c_pr d)
  | Some None => forall c, In c cs -> ~ there c
  | Some (Some q) => (exists c, In c cs /\ there c) /\ forall c, In c cs -> there c -> p_phase (c_pr c) = q
  end.
Proof.
  unfold one_phase. rewrite <- fold_left_rev_right. 
  assert (G : forall l, match fold_right (fun c acc => match acc with
    | None => None
    | Some ph => if neps <~ nabs (c_x c) then
          match ph with None => Some (Some (p_phase (c_pr c)))
          | Some q => if Nat.eqb (p_phase (c_pr c)) q then Some ph else None end
        else Some ph end) (Some None) l with
    | None => exists c d, In c l /\ In d l /\ there c /\ there d /\ p_phase (c_pr c) <> p_phase (c_pr d)
    | Some None => forall c, In c l -> ~ there c
    | Some (Some q) => (exists c, In c l /\ there c) /\ forall c, In c l -> there c -> p_phase (c_pr c) = q
    end).
  { induction l as [|c l IH]; cbn [fold_right]; [intros c []|].
    destruct (fold_right _ (Some None) l) as [[q|]|].
    - destruct IH as [(d & I & H) IH]. cbn [nlt nabs neps RNum]. destruct (Rltb_spec Reps (Rabs (c_x c))) as [P | P].
      + destruct (Nat.eqb_spec (p_phase (c_pr c)) q) as [E | E].
        * split; [exists d; cbn; auto|]. intros e [<- | J] K; auto.
        * exists c, d. cbn. repeat split; auto. rewrite (IH d I H). exact E.
      + split; [exists d; cbn; auto|]. intros e [<- | J] K; auto. unfold there in K. lra.
    - cbn [nlt nabs neps RNum]. destruct (Rltb_spec Reps (Rabs (c_x c))) as [P | P].
      + split; [exists c; cbn; auto|]. intros e [<- | J] K; auto. now destruct (IH e J).
      + intros e [<- | J] K; [unfold there in K; lra|]. now apply (IH e J).
    - destruct IH as (a & b & I & J & H). exists a, b. cbn. tauto. }
  specialize (G (rev cs)).
  destruct (fold_right _ (Some None) (rev cs)) as [[q|]|].
  - destruct G as [(c & I & H) G]. split; [exists c; rewrite in_rev; auto|].
    intros d J. apply G. now rewrite <- in_rev.
  - intros c I. apply G. now rewrite <- in_rev.
  - destruct G as (a & b & I & J & H). exists a, b. rewrite <- in_rev in I, J. tauto.
Qed.
Theorem C127_initialize : forall types i,
  let s := rsum (map snd types) in
  let x v := if Rlt_dec fltR (Rabs (1 - s)) then v / s else v in
  (initialize types i = Throws <->
   types = [] \/ i_t i < fltR \/ i_p i < fltR \/ / 10000 < Rabs (1 - s) \/
   exists q r, In q types /\ In r types /\ Reps < Rabs (x (snd q)) /\ Reps < Rabs (x (snd r)) /\
     p_phase (snd (fst q)) <> p_phase (snd (fst r))) /\
  (forall f, initialize types i = Ok f ->
   forall q, In q types -> Reps < Rabs (x (snd q)) -> f_phase f = Some (p_phase (snd (fst q)))).
Proof.
  intros types i s x. unfold initialize.
  destruct types as [|ty types']; [split; [cbn; tauto|cbn; discriminate]|].
  set (types := ty :: types') in *. replace (length types <? 1)%nat with false by reflexivity.
  rewrite flt_val. cbn [nlt RNum]. unfold Rltb.
  destruct (Rlt_dec (i_t i) fltR) as [T | T]; [split; [cbn; tauto|cbn; discriminate]|].
  destruct (Rlt_dec (i_p i) fltR) as [P | P]; [split; [cbn; tauto|cbn; discriminate]|].
  cbn [orb]. rewrite check_spec. fold s.
  destruct (Rlt_dec (/ 10000) (Rabs (1 - s))) as [S | S]; [split; [cbn; tauto|cbn; discriminate]|].
  assert (XS : (if Rlt_dec fltR (Rabs (1 - s)) then map (fun z => z / s) (map snd types) else map snd types)
    = map (fun q : nat * props R * R => x (snd q)) types).
  { unfold x. destruct (Rlt_dec fltR (Rabs (1 - s))); rewrite ?map_map; reflexivity. }
  rewrite XS. clear XS.
  match goal with |- context [one_phase ?l] => set (cs := l) end.
  assert (CS : cs = map (fun q : nat * props R * R =>
            mkconst (fst (fst q)) (snd (fst q)) (i_t i) (i_p i) (i_w i) (i_mass i)
                          (i_mass i / p_mw (snd (fst q))) (x (snd q)) (snd q)) types).
  { unfold cs, zip_with. clearbody x. generalize types. clear - x. intro l. induction l as [|q l IH]; [reflexivity|].
    cbn [map combine]. rewrite IH. reflexivity. }
  pose proof (one_phase_R cs) as OP. rewrite CS in OP. 
  destruct (one_phase cs) as [ph|] eqn:EO.
  - rewrite CS in EO. rewrite EO in OP. split.
    + split; [discriminate|]. intros [E | [E | [E | [E | (q & r & I & J & H1 & H2 & H3)]]]];
        try contradiction; try discriminate E.
      destruct ph as [ph|].
      * destruct OP as [_ OP]. exfalso. apply H3.
        rewrite (OP _ (in_map _ _ _ I) H1 : p_phase (snd (fst q)) = ph).
        now rewrite (OP _ (in_map _ _ _ J) H2 : p_phase (snd (fst r)) = ph).
      * exfalso. exact (OP _ (in_map _ _ _ I) H1).
    + intros f E q I H. injection E as <-. cbn [f_phase]. destruct ph as [ph|].
      * destruct OP as [_ OP]. now rewrite <- (OP _ (in_map _ _ _ I) H : p_phase (snd (fst q)) = ph).
      * exfalso. exact (OP _ (in_map _ _ _ I) H).
  - rewrite CS in EO. rewrite EO in OP. split; [|discriminate]. split; [intros _|reflexivity].
    do 4 right. destruct OP as (c & d & I & J & H1 & H2 & H3).
    apply in_map_iff in I as (q & <- & I). apply in_map_iff in J as (r & <- & J).
    exists q, r. auto.
Qed.
Print Assumptions C127_initialize.

(** *** Copying the state *)
Theorem C127_set_state : forall (f src : fluid R),
  (set_state f src = Throws <-> map c_type (f_cs f) <> map c_type (f_cs src)) /\
  (forall f', set_state f src = Ok f' ->
     f_mass f' = f_mass f /\ f_mole f' = f_mole f /\ f_phase f' = f_phase f /\
     map c_mass (f_cs f') = map c_mass (f_cs f) /\ map c_mole (f_cs f') = map c_mole (f_cs f) /\
     (map c_pr (f_cs f) = map c_pr (f_cs src) -> f_phase f = f_phase src ->
      real_types src -> balanced src -> set_mass f' (f_mass src) = src)).
Proof.
  intros f src. unfold set_state, same_types.
  destruct (list_eq_dec Nat.eq_dec (map c_type (f_cs f)) (map c_type (f_cs src))) as [E | E].
  2:{ split; [tauto|discriminate]. }
  split; [split; [discriminate|tauto]|]. intros f' H. injection H as <-.
  assert (HL : length (f_cs f) = length (f_cs src))
    by (rewrite <- (map_length c_type), E; apply map_length).
  do 3 (split; [reflexivity|]). cbn [f_cs].
  assert (Z : forall (g : const R -> R) (z : const R -> const R -> const R), (forall c d, g (z c d) = g c) ->
     map g (zip_with z (f_cs f) (f_cs src)) = map g (f_cs f)).
  { intros g z Hz. revert HL. unfold zip_with. generalize (f_cs f) (f_cs src).
    induction l as [|c l IH]; intros [|d m] L; try discriminate; [reflexivity|].
    cbn [combine map fst snd]. rewrite Hz. f_equal. apply IH. now injection L. }
  do 2 (split; [apply Z; reflexivity|]). clear Z.
  intros EP PH RT B. pose proof (balanced_mw src RT B) as HM. pose proof eps_lt_flt as FE.
  destruct B as [B1 B2 B3 B4 B5 B6 B7 B8 B9].
  unfold set_mass. cbn [f_mw f_t f_p f_w f_phase f_rho f_visc f_cp f_h f_k f_pr f_gam f_cs].
  assert (DW : dlim (f_mw src) = f_mw src) by (apply dlim_id; lra). rewrite DW.
  assert (MO : f_mass src /~ f_mw src = f_mole src) by (rnum; rewrite B7; field; lra). rewrite MO, PH.
  match goal with |- mkfluid _ _ _ _ _ _ _ _ _ _ _ _ _ _ ?l = _ => assert (CS : l = f_cs src) end.
  { assert (RT' : forall c, In c (f_cs src) -> 0 < p_mw (c_pr c)).
    { unfold real_types in RT. rewrite Forall_forall in RT. intros c I. specialize (RT c I). lra. }
    assert (K : forall c, In c (f_cs src) -> cset_mass c (c_x c *~ f_mass src) = c).
    { intros c I. specialize (B1 c I). specialize (B3 c I). specialize (RT' c I).
      unfold cset_mass, c_mw. rnum. rewrite <- B1. destruct c; cbn in *. rewrite B3. f_equal. field. lra. }
    clear - E EP HL K. revert E EP HL K. unfold zip_with. generalize (f_cs f) (f_cs src).
    induction l as [|c l IH]; intros [|d m] E EP HL K; try discriminate; [reflexivity|].
    cbn [combine map fst snd] in *. injection E as E0 E. injection EP as EP0 EP.
    f_equal; [|apply IH; auto; intros x I; apply K; now right].
    etransitivity; [|exact (K d (or_introl eq_refl))]. unfold cset_mass, c_mw.
    cbn [c_type c_pr c_t c_p c_w c_mass c_mole c_x c_y]. rewrite E0, EP0. reflexivity. }
  rewrite CS. destruct src; reflexivity.
Qed.
Print Assumptions C127_set_state.
Theorem C127_reset : forall (f : fluid R), let z := reset_state f in
  map c_type (f_cs z) = map c_type (f_cs f) /\ map c_pr (f_cs z) = map c_pr (f_cs f) /\
  f_phase z = f_phase f /\
  (forall c, In c (f_cs z) -> c_t c = 0 /\ c_p c = 0 /\ c_w c = 0 /\ c_mass c = 0 /\ c_mole c = 0 /\ c_x c = 0 /\ c_y c = 0) /\
  f_t z = 0 /\ f_p z = 0 /\ f_w z = 0 /\ f_mass z = 0 /\ f_mole z = 0 /\ f_mw z = 0 /\ f_rho z = 0 /\
  f_visc z = 0 /\ f_cp z = 0 /\ f_h z = 0 /\ f_k z = 0 /\ f_pr z = 0 /\ f_gam z = 0.
Proof.
  intros f z. unfold z, reset_state. cbn [f_cs]. rewrite !map_map. do 3 (split; [reflexivity|]).
  split; [|repeat split].
  intros c I. apply in_map_iff in I as (d & <- & _). cbn. auto 10.
Qed.
Print Assumptions C127_reset.

(** *** The hypotheses can be met *)
Definition ideal_gas (r w : R) : props R :=
  mkprops w 0 1000 0 1 2000 (fun t q => w / r * q / t) (fun _ _ => 1) (fun _ _ => 1) (fun _ _ => 1) (fun _ _ => 1)
    (fun t d => r / w * t * d).
Definition exI : fluid R :=
  mkfluid 300 100 1 8 3 (Some 0%nat) (8 / 3) 1 1 1 1 1 1 1
    [mkconst 0 (ideal_gas 8 4) 300 (100 / 3) (1 / 2) 4 1 (1 / 2) (1 / 3);
     mkconst 1 (ideal_gas 8 2) 300 (200 / 3) (1 / 2) 4 2 (1 / 2) (2 / 3)].
Example exI_inverse : compute_p exI 300 (compute_rho exI 300 100) = 100.
Proof.
  pose proof eps_lt_flt as E. pose proof flt_pos as F.
  apply (C126_ideal_mixture 8); try lra; try (unfold total, rsum; cbn; lra).
  - intros c [<- | [<- | []]]; (split; [split; reflexivity|]); cbn; (split; [lra|]); right; lra.
  - intros c [<- | [<- | []]]; cbn; lra.
Qed.
Example exR_partial : exists f', edit_partial exR 300 [30; 10] = Ok f' /\ f_p f' = 40 /\ map c_y (f_cs f') = [3 / 4; 1 / 4].
Proof.
  destruct (C127_edit_partial exR 300 [30; 10]) as (f' & H1 & _ & _ & H2 & _ & _ & H3 & _);
    [cbn; lia|exact exR_types|]. pose proof flt_pos as F. cbn [length exR f_cs firstn map] in *.
  assert (S : rsum [Rmax 0 30; Rmax 0 10] = 40) by (unfold rsum; cbn; rewrite !Rmax_right by lra; lra).
  rewrite S in *. exists f'. split; [exact H1|]. split; [exact H2|].
  destruct H3 as [H3 _]; [lra|]. rewrite H3. cbn. rewrite !Rmax_right by lra. repeat (f_equal; try lra).
Qed.
Example exR_copy : exists f', set_state (reset_state exR) exR = Ok f' /\ set_mass f' 8 = exR.
Proof.
  destruct (set_state (reset_state exR) exR) as [f'| |] eqn:E.
  - exists f'. split; [reflexivity|]. destruct (C127_set_state (reset_state exR) exR) as [_ H].
    destruct (H f' E) as (_ & _ & _ & _ & _ & K). apply K; [reflexivity|reflexivity|exact exR_types|exact exR_balanced].
  - discriminate E.
  - discriminate E.
Qed.
