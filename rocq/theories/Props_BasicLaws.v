(** C98, C99: what each basic link lets through, and its update flag. *)
From Coq Require Import Floats.
From Coq Require Import Reals Lra Lia List Arith Bool ZArith Psatz.
From Verif Require Import Num Loops Ord MathUtil Links Spec_Ldu Ldu Spec_Assembly Assembly
  BasicLinks Spec_BasicLinks Props_Network Props_BasicLinks Props_BasicFlow Props_BasicCtl.
Import ListNotations.
Local Open Scope R_scope.

(** ** C98 The laws of the links *)

(** Any number of minor steps and trial potentials, then the accepted ones. *)
Inductive trial := Minor (dt : R) | Place (x y : R) | Poll.
Definition try_one (l : blink (T := R)) (t : trial) : blink :=
  match t with Minor dt => minor_step dt l | Place x y => placed x y l | Poll => polled l end.
Definition tries (l : blink (T := R)) (ts : list trial) : blink := fold_left try_one ts l.

(** The conductance with blockage and limits. *)
Definition conductance (g blk : R) : R := Rmin (Rmax 0 (g * (1 - blk))) (10 ^ 15).
Lemma conductance_limit_R g blk : limit_range n0 (g * (1 - blk)) conductance_limit = conductance g blk.
Proof.
  rewrite limit_R. unfold conductance. assert (0 < 10 ^ 15) by (apply pow_lt; lra).
  unfold Rmin, Rmax.
  destruct (Rltb_spec (10 ^ 15) (g * (1 - blk))); [|destruct (Rltb_spec (g * (1 - blk)) 0)];
    destruct (Rle_dec 0 (g * (1 - blk))); destruct (Rle_dec _ (10 ^ 15)); lra.
Qed.

Lemma cond_step_adm (c : cond (T := R)) dt : square (c_b c) ->
  b_a0 (c_b (cond_step dt c)) = conductance (fst (update_state dt c)) (blockage (c_b c)).
Proof.
  intros Sq. unfold cond_step. destruct (update_state dt c) as [eff lw] eqn:E. cbn [fst].
  set (g := if b_malf _ then _ else _).
  assert (Eg : g = eff * (1 - blockage (c_b c))).
  { unfold g, blockage. rnum. destruct (b_malf (c_b c)); ring. }
  rewrite Eg. rewrite <- conductance_limit_R.
  set (h := limit_range n0 _ conductance_limit).
  destruct (set_adm_R (c_b c) h Sq) as (_ & A & _). cbn [c_b].
  destruct lw; unfold build_potential, with_src; cbn [b_a0]; exact A.
Qed.

Definition linear_law (l : law (T := R)) : bool := match l with Controller _ _ _ _ => false | _ => true end.

Lemma tries_cond ts : forall c : cond (T := R), linear_law (c_law c) = true ->
  exists c', tries (Cond c) ts = Cond c' /\ c_law c' = c_law c /\
    b_a0 (c_b c') = b_a0 (c_b c) /\ b_w0 (c_b c') = b_w0 (c_b c).
Proof.
  induction ts as [|t ts IH]; intros c L; [exists c; auto|].
  unfold tries. cbn [fold_left].
  assert (S1 : exists c1, try_one (Cond c) t = Cond c1 /\ c_law c1 = c_law c /\
     b_a0 (c_b c1) = b_a0 (c_b c) /\ b_w0 (c_b c1) = b_w0 (c_b c)).
  { destruct t as [dt|x y|]; cbn [try_one].
    - exists c. cbn [minor_step]. destruct (c_law c); try discriminate L; auto.
    - exists (with_base c (with_pot (c_b c) x y)). repeat split.
    - exists (with_base c (fst (need_update (c_b c)))). repeat split. }
  destruct S1 as (c1 & E1 & L1 & A1 & W1). rewrite E1.
  destruct (IH c1) as (c' & E' & L' & A' & W'); [now rewrite L1|].
  exists c'. unfold tries in E'. rewrite E', L', A', W'. auto.
Qed.
Lemma tries_source ts : forall s (b : base (T := R)), exists b', tries (Source s b) ts = Source s b' /\ b_flux b' = b_flux b.
Proof.
  induction ts as [|t ts IH]; intros s b; [exists b; auto|].
  unfold tries. cbn [fold_left]. destruct t as [dt|x y|]; cbn [try_one minor_step].
  - apply IH.
  - destruct (IH s (with_pot b x y)) as (b' & E & F). exists b'. split; [exact E|exact F].
  - destruct (IH s (fst (need_update b))) as (b' & E & F). exists b'. split; [exact E|exact F].
Qed.

(** What a link lets through after a step, whatever happened to it before and
    whatever potentials were tried in between, with the potentials [d] apart:
    - a conductor its default conductivity, less blockage, times the drop, or
      nothing in the dead band;
    - a potential the same with the source potential added to the drop;
    - an external demand as a potential with its estimated conductivity;
    - a source its demand less blockage. *)
Theorem C98_laws (l : blink (T := R)) dt ts : reach l ->
  let l' := tries (step dt l) ts in
  let d := drop_of l' in
  let hi := Rmax (b_p0 (bbase l')) (b_p1 (bbase l')) in
  let blk := blockage (bbase l) in
  match l with
  | Cond c =>
      match c_law c with
      | Plain => flux_of (flows l') = if Rltb (Rabs d) (hi * (100 * Reps)) then 0 else conductance (c_def c) blk * d
      | Potential sp => flux_of (flows l') = conductance (c_def c) blk * (d + sp)
      | Demand sp f =>
          flux_of (flows l') = conductance (demand_eff dt (demand_filter dt (b_flux (c_b c)) sp f)) blk * (d + sp)
      | Controller _ _ _ _ => True
      end
  | Source s _ => flux_of (flows l') = s * (1 - blk)
  | Capacitor _ _ _ _ => True
  end.
Proof.
  intros Rl. cbv zeta. pose proof (shape_pre l (reach_shape l Rl)) as (Sq & _).
  destruct l as [c|s b|cap e v b]; [|cbn [step bbase]|exact I].
  - cbn [bbase] in Sq. pose proof (cond_step_adm c dt Sq) as HA. cbn [bbase].
    assert (Src : forall sp, (c_law (cond_step dt c) = Potential sp \/ exists f, c_law (cond_step dt c) = Demand sp f) ->
       b_w0 (c_b (cond_step dt c)) = - sp * b_a0 (c_b (cond_step dt c))).
    { intros sp. unfold cond_step. destruct (update_state dt c) as [eff lw]. cbv zeta. cbn [c_law c_b].
      intros [->|(f & ->)]; unfold build_potential, with_src; cbn [b_w0 b_a0]; rnum; reflexivity. }
    assert (HF : forall sp c', (c_law c' = Potential sp \/ exists f, c_law c' = Demand sp f) ->
       flux_of (flows (Cond c')) = drop_of (Cond c') * b_a0 (c_b c') - b_w0 (c_b c')).
    { intros sp c' Hl. unfold flux_of, drop_of. cbn [flows bbase]. unfold cond_flows, with_base. cbn [c_b].
      destruct Hl as [->|(f & ->)]; reflexivity. }
    destruct (c_law c) as [|m mv cm rv|sp|sp f] eqn:El; [| exact I | |].
    + assert (L1 : c_law (cond_step dt c) = Plain) by (unfold cond_step, update_state; rewrite El; reflexivity).
      destruct (tries_cond ts (cond_step dt c)) as (c' & Et & Lc & Ac & _); [now rewrite L1|].
      cbn [step]. rewrite Et. assert (Pl : plain_like (Cond c') = true) by (cbn; rewrite Lc, L1; reflexivity).
      rewrite (cond_flux c' Pl). unfold drop_of. cbn [bbase]. rewrite Ac, HA. unfold update_state. rewrite El. cbn [fst].
      destruct (Rltb _ _); [reflexivity|ring].
    + assert (L1 : c_law (cond_step dt c) = Potential sp) by (unfold cond_step, update_state; rewrite El; reflexivity).
      destruct (tries_cond ts (cond_step dt c)) as (c' & Et & Lc & Ac & Wc); [now rewrite L1|].
      cbn [step]. rewrite Et, (HF sp c') by (left; congruence). rewrite Ac, Wc, (Src sp) by auto. rewrite HA.
      unfold update_state. rewrite El. cbn [fst]. ring.
    + assert (L1 : exists f', c_law (cond_step dt c) = Demand sp f')
        by (unfold cond_step, update_state; rewrite El; eexists; reflexivity).
      destruct L1 as (f' & L1).
      destruct (tries_cond ts (cond_step dt c)) as (c' & Et & Lc & Ac & Wc); [now rewrite L1|].
      cbn [step]. rewrite Et, (HF sp c') by (right; exists f'; congruence). rewrite Ac, Wc, (Src sp) by eauto. rewrite HA.
      unfold update_state. rewrite El. cbn [fst]. ring.
  - destruct (tries_source ts s (source_step s b)) as (b' & E & F). rewrite E.
    unfold flux_of. cbn [flows bbase]. unfold source_flows, compute_power, with_power, with_drop. cbn [b_flux].
    rewrite F. unfold source_step, with_src, with_flux. cbn [b_flux]. unfold blockage. rnum. destruct (b_malf b); ring.
Qed.
Print Assumptions C98_laws.

(** A flow controller takes the law of C95 again in every minor step. *)
Theorem C98_controller_minor (c : cond (T := R)) dt : is_controller (c_law c) ->
  minor_step dt (Cond c) = step dt (Cond c).
Proof. intros K. cbn [minor_step step]. destruct (c_law c); try contradiction. reflexivity. Qed.

(** The power is that of the flux against the drop: positive when it is raised. *)
Theorem C98_power (l : blink (T := R)) : power_of (flows l) = - flux_of (flows l) * drop_of (flows l).
Proof. destruct l as [c|s b|cap e v b]; [destruct (c_law c) eqn:E|..]; reflexivity. Qed.
Print Assumptions C98_power.

(** The flux through a node without net flux is all that enters and all that
    leaves; in general the smaller of the two. *)
Theorem C98_through (s : fluxes (T := R)) node :
  flux_through s node = Rmin (f_in s node) (f_out s node) /\
  (net_flux s node = 0 -> flux_through s node = f_in s node /\ flux_through s node = f_out s node).
Proof.
  unfold flux_through, net_flux. rnum.
  destruct (Rltb_spec (f_in s node) (f_out s node)); unfold Rmin; destruct (Rle_dec _ _); split; intros; lra.
Qed.
Print Assumptions C98_through.

Example C98_ok : reach (Cond (mkcond (blank (T := R)) 1 0 0 (Potential 2))).
Proof. apply r_new; repeat split. Qed.

(** ** C99 The update flag *)

(** Any calls but the solver's poll and a restart, after which the solver builds
    the matrix anyway (Gunns.cpp:719). *)
Inductive between {T} {N : Num T} : blink (T := T) -> blink -> Prop :=
| bt_refl l : between l l
| bt_set l l' l'' : between l l' -> resets l' l'' -> between l l''
| bt_step dt l l' : between l l' -> between l (step dt l')
| bt_minor dt l l' : between l l' -> between l (minor_step dt l')
| bt_place x y l l' : between l l' -> between l (placed x y l')
| bt_flow l l' : between l l' -> between l (flows l').

Definition same_adm {T} (b b' : base (T := T)) : Prop :=
  b_a0 b' = b_a0 b /\ b_a1 b' = b_a1 b /\ b_a2 b' = b_a2 b /\ b_a3 b' = b_a3 b.

Section FLAG.
Context {T : Type} {N : Num T}.
Definition told (b b' : base (T := T)) : Prop := b_upd b' = true \/ b_upd b' = b_upd b /\ same_adm b b'.

Lemma told_refl b : told b b.
Proof. right. repeat split. Qed.
Lemma told_trans b b' b'' : told b b' -> told b' b'' -> told b b''.
Proof.
  intros [U|(U & A0 & A1 & A2 & A3)] [V|(V & B0 & B1 & B2 & B3)]; unfold told, same_adm; auto.
  - left. congruence.
  - right. repeat split; congruence.
Qed.
Lemma set_adm_told b a : told b (set_adm b a).
Proof. unfold set_adm. destruct (n0 <~ _); [left; reflexivity|apply told_refl]. Qed.
Lemma cond_told dt (c : cond (T := T)) : told (c_b c) (c_b (cond_step dt c)).
Proof.
  destruct (cond_step_base dt c) as (g & _ & E0 & E1 & E2 & E3 & Eu). cbv zeta in *.
  destruct (set_adm_told (c_b c) (c_sys (cond_step dt c))) as [U|(U & A0 & A1 & A2 & A3)]; unfold told, same_adm.
  - left. congruence.
  - right. repeat split; congruence.
Qed.
Lemma step_told dt (l : blink (T := T)) : told (bbase l) (bbase (step dt l)).
Proof.
  destruct l as [c|s b|cap e v b]; cbn [step bbase]; [apply cond_told|right; repeat split|].
  unfold build_capacitance. cbv zeta. set (a := if dt <~ neps then _ else _).
  exact (set_adm_told b a).
Qed.

(** Read after any calls, the flag is up or the admittances are those of the last
    time it was read; whatever the numbers, NaN included. *)
Theorem C99_flag_is_sound (l l' : blink (T := T)) : between (polled l) l' ->
  snd (need_update (bbase l')) = true \/ same_adm (bbase l) (bbase l').
Proof.
  intros B. assert (K : told (bbase (polled l)) (bbase l')).
  { induction B as [l0|l0 l1 l2 B IH (V & _)|dt l0 l1 B IH|dt l0 l1 B IH|x y l0 l1 B IH|l0 l1 B IH].
    - apply told_refl.
    - eapply told_trans; [exact IH|]. destruct V as (_ & _ & A0 & A1 & A2 & A3 & _ & _ & U & _). right. repeat split; auto.
    - eapply told_trans; [exact IH|apply step_told].
    - eapply told_trans; [exact IH|]. destruct l1 as [c| |]; cbn [minor_step]; try apply told_refl.
      destruct (c_law c); try apply told_refl. apply cond_told.
    - eapply told_trans; [exact IH|]. destruct l1; right; repeat split.
    - eapply told_trans; [exact IH|]. destruct l1; right; repeat split. }
  destruct K as [K|(U & A)]; [left; exact K|right].
  destruct l; exact A.
Qed.

(** And it stays up until it is read. *)
Theorem C99_flag_stays (l l' : blink (T := T)) : between l l' -> b_upd (bbase l) = true -> b_upd (bbase l') = true.
Proof.
  intros B U. induction B as [l0|l0 l1 l2 B IH (V & _)|dt l0 l1 B IH|dt l0 l1 B IH|x y l0 l1 B IH|l0 l1 B IH];
    auto; specialize (IH U).
  - destruct V as (_ & _ & _ & _ & _ & _ & _ & _ & V & _). congruence.
  - destruct (step_told dt l1) as [K|(K & _)]; congruence.
  - destruct l1 as [c| |]; cbn [minor_step]; auto. destruct (c_law c); auto.
    destruct (cond_told dt c) as [K|(K & _)]; [exact K|]. cbn [bbase] in *. congruence.
  - destruct l1; exact IH.
  - destruct l1; exact IH.
Qed.
End FLAG.
Print Assumptions C99_flag_is_sound.
Print Assumptions C99_flag_stays.

(** It is not raised for nothing: a conductor stepped twice with the same
    settings asks for one rebuild (any numbers that are not NaN). *)
Theorem C99_flag_is_tight (c : cond (T := R)) dt dt' : reach (Cond c) -> c_law c = Plain ->
  let l1 := polled (step dt (Cond c)) in snd (need_update (bbase (step dt' l1))) = false.
Proof.
  intros Rl L. cbv zeta. pose proof (shape_pre _ (reach_shape _ Rl)) as (Sq & _). cbn [bbase] in Sq.
  pose proof (cond_step_adm c dt Sq) as HA.
  unfold polled. cbn [step bbase set_base]. set (c1 := with_base (cond_step dt c) _).
  assert (L1 : c_law c1 = Plain) by (unfold c1, cond_step, update_state; rewrite L; reflexivity).
  assert (D1 : c_def c1 = c_def c) by (unfold c1, cond_step, update_state; rewrite L; reflexivity).
  assert (B1 : b_malf (c_b c1) = b_malf (c_b c) /\ b_malfv (c_b c1) = b_malfv (c_b c)).
  { unfold c1, cond_step, update_state. rewrite L. cbv zeta. cbn [with_base c_b need_update fst with_upd b_malf b_malfv].
    unfold set_adm. destruct (n0 <~ _); auto. }
  assert (A1 : b_a0 (c_b c1) = conductance (c_def c) (blockage (c_b c))).
  { unfold update_state in HA. rewrite L in HA. cbn [fst] in HA. exact HA. }
  assert (U1 : b_upd (c_b c1) = false) by reflexivity.
  clearbody c1. unfold cond_step at 1. unfold update_state. rewrite L1. cbv zeta. cbn [c_b need_update snd].
  destruct B1 as (Bm & Bv). rewrite Bm, Bv, D1.
  replace (if b_malf (c_b c) then c_def c *~ (n1 -~ b_malfv (c_b c)) else c_def c)
    with (c_def c * (1 - blockage (c_b c))).
  2:{ unfold blockage. rnum. destruct (b_malf (c_b c)); ring. }
  rewrite conductance_limit_R, <- A1. unfold set_adm. rnum.
  rewrite Rminus_eq_0, Rabs_R0, Rltb_false by lra. exact U1.
Qed.
Print Assumptions C99_flag_is_tight.
