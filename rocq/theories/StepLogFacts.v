(** Lemmas about the minor step log. *)
From Coq Require Import List ZArith Bool Lia.
From Verif Require Import MsgQueue StepLog Spec_StepLog.
Import ListNotations.
Local Open Scope Z_scope.

Lemma su32 z : - 2 ^ 31 <= z < 2 ^ 31 -> s32 (u32 z) = z.
Proof.
  intro H. unfold s32, u32. rewrite Zplus_mod_idemp_l. rewrite Z.mod_small; lia.
Qed.
Lemma s32_id z : - 2 ^ 31 <= z < 2 ^ 31 -> s32 z = z.
Proof. intro H. unfold s32. rewrite Z.mod_small; lia. Qed.
Lemma u32_id z : 0 <= z < 2 ^ 32 -> u32 z = z.
Proof. intro H. unfold u32. now apply Z.mod_small. Qed.

Lemma upd_length {B} (l : list B) i x : List.length (upd l i x) = List.length l.
Proof. revert i. induction l as [|y l IH]; intros [|i]; cbn; auto. Qed.
Lemma upd_same {B} (l : list B) i x : (i < List.length l)%nat -> nth_error (upd l i x) i = Some x.
Proof. revert i. induction l as [|y l IH]; intros [|i] H; cbn in *; try lia; auto. apply IH. lia. Qed.
Lemma upd_other {B} (l : list B) i j x : i <> j -> nth_error (upd l i x) j = nth_error l j.
Proof. revert i j. induction l as [|y l IH]; intros [|i] [|j] H; cbn; auto; try congruence. Qed.
Lemma upd_Forall {B} (P : B -> Prop) l i x : Forall P l -> P x -> Forall P (upd l i x).
Proof. intros H X. revert i. induction H; intros [|i]; cbn; constructor; auto. Qed.

Section FACTS.
Context {A : Type}.
Implicit Types (g : Log A) (f : Frame A) (l : list (Step A)).

(** The buffer of a log with a positive size. *)
Definition sound (n : nat) (ports : list nat) g : Prop :=
  0 < g_size g < 2 ^ 31 /\ List.length (g_buf g) = Z.to_nat (g_size g) /\
  Forall (frame_dims n ports) (g_buf g) /\ 0 <= g_head g < g_size g /\ 0 <= g_valid g <= g_size g.

Lemma sound_head n ports g : sound n ports g -> exists f, head g = Ret f /\ frame_dims n ports f /\
  nth_error (g_buf g) (Z.to_nat (g_head g)) = Some f.
Proof.
  intros (S & L & D & H & _). unfold head, get. rewrite (proj2 (Z.ltb_ge _ _)) by lia.
  destruct (nth_error (g_buf g) (Z.to_nat (g_head g))) as [f|] eqn:E.
  - exists f. split; auto. split; auto. rewrite Forall_forall in D. apply D. eapply nth_error_In, E.
  - apply nth_error_None in E. lia.
Qed.

Lemma at_head_sound n ports g h : sound n ports g ->
  (forall f, frame_dims n ports f -> exists f', h f = Ret f' /\ frame_dims n ports f') ->
  exists f f', nth_error (g_buf g) (Z.to_nat (g_head g)) = Some f /\ h f = Ret f' /\
    at_head g h = Ret (with_buf g (upd (g_buf g) (Z.to_nat (g_head g)) f')) /\
    sound n ports (with_buf g (upd (g_buf g) (Z.to_nat (g_head g)) f')).
Proof.
  intros S H. destruct (sound_head n ports g S) as (f & E & D & I).
  destruct (H f D) as (f' & E' & D'). exists f, f'.
  split; auto. split; auto. unfold at_head. rewrite E. cbn [bindO]. rewrite E'. cbn [bindO]. split; auto.
  destruct S as (S1 & S2 & S3 & S4 & S5). unfold sound. cbn [with_buf g_size g_buf g_head g_valid].
  rewrite upd_length. split; [lia|]. split; [auto|]. split; [now apply upd_Forall|]. lia.
Qed.

(** The slot of the j-th newest step. *)
Definition slot g (j : nat) : nat := Z.to_nat ((g_head g - Z.of_nat j) mod g_size g).
Definition holds g l : Prop :=
  g_valid g = Z.min (g_size g) (Z.of_nat (List.length l)) /\
  forall j s, nth_error l j = Some s -> Z.of_nat j < g_size g ->
    exists f, nth_error (g_buf g) (slot g j) = Some f /\ matches s f.

Lemma slot_0 n ports g : sound n ports g -> slot g 0 = Z.to_nat (g_head g).
Proof.
  intros (S1 & _ & _ & S4 & _). unfold slot. rewrite Z.sub_0_r, Z.mod_small by lia. reflexivity.
Qed.
Lemma slot_inj n ports g i j : sound n ports g -> Z.of_nat i < g_size g -> Z.of_nat j < g_size g ->
  slot g i = slot g j -> i = j.
Proof.
  intros (S1 & _) I J E. unfold slot in E.
  pose proof (Z.mod_pos_bound (g_head g - Z.of_nat i) (g_size g) ltac:(lia)).
  pose proof (Z.mod_pos_bound (g_head g - Z.of_nat j) (g_size g) ltac:(lia)).
  assert (M : (g_head g - Z.of_nat i) mod g_size g = (g_head g - Z.of_nat j) mod g_size g) by lia.
  pose proof (Z.div_mod (g_head g - Z.of_nat i) (g_size g) ltac:(lia)) as D1.
  pose proof (Z.div_mod (g_head g - Z.of_nat j) (g_size g) ltac:(lia)) as D2.
  rewrite M in D1. set (q1 := (g_head g - Z.of_nat i) / g_size g) in *. set (q2 := (g_head g - Z.of_nat j) / g_size g) in *.
  assert (g_size g * (q1 - q2) = Z.of_nat j - Z.of_nat i) by lia.
  assert (q1 - q2 = 0) by nia. lia.
Qed.

(** A record call that changes the head frame. *)
Lemma holds_head n ports g s s' r f f' : sound n ports g ->
  nth_error (g_buf g) (Z.to_nat (g_head g)) = Some f ->
  (matches s f -> matches s' f') ->
  holds g (s :: r) -> holds (with_buf g (upd (g_buf g) (Z.to_nat (g_head g)) f')) (s' :: r).
Proof.
  intros S F M [V H]. split; [exact V|]. intros j t E J.
  cbn [with_buf g_buf g_size] in *. change (slot (with_buf g _) j) with (slot g j).
  pose proof (slot_0 n ports g S) as Z0.
  destruct j as [|j].
  - cbn in E. injection E as <-. destruct (H 0%nat s eq_refl J) as (f0 & E0 & M0).
    exists f'. rewrite Z0 in *. rewrite upd_same; [|apply nth_error_Some; congruence].
    split; auto. apply M. congruence.
  - destruct (H (Datatypes.S j) t E J) as (f0 & E0 & M0). exists f0. split; auto.
    rewrite upd_other; auto. rewrite <- Z0. intro X.
    apply (slot_inj n ports) in X; auto; [discriminate X | destruct S as (S1 & _); lia].
Qed.
Lemma holds_empty g b : holds g [] -> holds (with_buf g b) [].
Proof. intros [V H]. split; auto. intros [|j] t E; discriminate E. Qed.

Lemma link_dims_map n ports f k r d : frame_dims n ports f -> nth_error (f_links f) k = Some d ->
  map (fun d => (ld_admit d, ld_source d)) (upd (f_links f) k (mkLD r (ld_admit d) (ld_source d))) =
  map (fun d => (ld_admit d, ld_source d)) (f_links f).
Proof.
  intros _. generalize (f_links f) as ls. intro ls. revert k. induction ls as [|x ls IH]; intros [|k] E; cbn in *; auto.
  - injection E as <-. reflexivity.
  - now rewrite IH.
Qed.

Lemma assign_eq (a : nat) (v : list A) : List.length v = a -> assign a v = Ret v.
Proof. intros <-. unfold assign. rewrite Nat.leb_refl, firstn_all. reflexivity. Qed.

Lemma contribute_ok ports (ds : list (LinkData A)) ls :
  Forall2 link_dims ports (map (fun d => (ld_admit d, ld_source d)) ds) ->
  Forall2 link_dims ports ls ->
  exists ds', contribute ds ls = Ret ds' /\ map (fun d => (ld_admit d, ld_source d)) ds' = ls /\
    map (@ld_result A) ds' = map (@ld_result A) ds.
Proof.
  revert ports ls. induction ds as [|d ds IH]; intros ports ls H1 H2; cbn [map] in H1.
  - inversion H1; subst. inversion H2; subst. exists []. auto.
  - inversion H1 as [|p x ports' y [D1 D2] H1']; subst. inversion H2 as [|p' [m v] ports'' ls' [E1 E2] H2']; subst.
    cbn [fst snd] in *. destruct (IH ports' ls' H1' H2') as (ds' & C & M1 & M2).
    exists (mkLD (ld_result d) m v :: ds'). cbn [contribute].
    rewrite (assign_eq _ v) by congruence. cbn [bindO].
    rewrite (assign_eq _ m) by congruence. cbn [bindO]. rewrite C. cbn [bindO map ld_admit ld_source ld_result].
    rewrite M1, M2. auto.
Qed.


(** The recording calls on a recording log never fail and keep what they should. *)
Lemma rec_call_ok n ports c g l : sound n ports g -> g_rec g = true -> holds g l -> dims n ports c ->
  exists g', rec_call c g = Ret g' /\ sound n ports g' /\ g_rec g' = true /\ holds g' (spec_call c l) /\
    g_size g' = g_size g /\ g_state g' = g_state g /\ g_cmd g' = g_cmd g /\ g_steps g' = g_steps g /\ g_file g' = g_file g.
Proof.
  intros S R H D.
  (* calls that change the head frame only *)
  assert (K : forall h,
    (forall f, frame_dims n ports f -> exists f', h f = Ret f' /\ frame_dims n ports f' /\
       forall s r, l = s :: r -> matches s f -> exists s', spec_call c l = s' :: r /\ matches s' f') ->
    (l = [] -> spec_call c l = []) ->
    rec_call c g = at_head g h ->
    exists g', rec_call c g = Ret g' /\ sound n ports g' /\ g_rec g' = true /\ holds g' (spec_call c l) /\
      g_size g' = g_size g /\ g_state g' = g_state g /\ g_cmd g' = g_cmd g /\ g_steps g' = g_steps g /\ g_file g' = g_file g).
  { intros h P N E. destruct (at_head_sound n ports g h S) as (f & f' & F & HF & AH & S').
    { intros f Df. destruct (P f Df) as (f' & X & Y & _). eauto. }
    exists (with_buf g (upd (g_buf g) (Z.to_nat (g_head g)) f')). rewrite E, AH.
    split; auto. split; auto. split; auto. split; [|auto 10].
    assert (Df : frame_dims n ports f).
    { destruct S as (_ & _ & FA & _). rewrite Forall_forall in FA. apply FA. eapply nth_error_In, F. }
    destruct (P f Df) as (f2 & X & _ & M). rewrite HF in X. injection X as <-.
    destruct l as [|s r].
    - rewrite N by auto. now apply holds_empty.
    - assert (J : exists s', spec_call c (s :: r) = s' :: r).
      { destruct c; cbn [spec_call]; eauto.
        destruct (proj2 H 0%nat s eq_refl) as (f0 & E0 & M0); [destruct S as (S1 & _); lia|].
        rewrite (slot_0 n ports g S), F in E0. injection E0 as <-.
        destruct (M s r eq_refl M0) as (s' & Q & _). exists s'. exact Q. }
      destruct J as (s' & J). rewrite J. apply (holds_head n ports g s s' r f f'); auto.
      intro M0. destruct (M s r eq_refl M0) as (s2 & Q & M2).
      assert (s2 = s') by congruence. subst s2. exact M2. }
  destruct c as [a b|v|v|ls|k x|d x]; cbn [dims] in D.
  - (* begin *)
    clear K. cbn [rec_call spec_call]. unfold begin_minor. rewrite R.
    destruct S as (S1 & S2 & S3 & S4 & S5).
    set (g1 := step g).
    assert (G1 : g1 = mkLog (g_cmd g) (g_steps g) (g_state g) true (g_buf g) (g_size g)
      ((g_head g + 1) mod g_size g) (Z.min (g_size g) (Z.of_nat (List.length l) + 1)) (g_file g)).
    { unfold g1, step. rewrite R. destruct H as [V _]. f_equal.
      - rewrite u32_id by lia. destruct (Z.leb_spec (g_size g) (g_head g + 1)).
        + replace (g_head g + 1) with (g_size g) by lia. now rewrite Z.mod_same by lia.
        + now rewrite Z.mod_small by lia.
      - destruct (Z.ltb_spec (g_valid g) (g_size g)); [rewrite u32_id by lia|]; lia. }
    assert (H1 : 0 <= (g_head g + 1) mod g_size g < g_size g) by (apply Z.mod_pos_bound; lia).
    assert (Sd1 : sound n ports g1).
    { rewrite G1. unfold sound. cbn [g_size g_buf g_head g_valid].
      split; [lia|]. split; [auto|]. split; [auto|]. lia. }
    destruct (at_head_sound n ports g1 (fun f => Ret (mkFrame a b (f_decomp f) (f_result f) (f_pot f) (f_conv f) (f_links f))) Sd1)
      as (f & f' & F & HF & AH & Sd2).
    { intros f0 (D1 & D2 & D3). eexists. split; [reflexivity|].
      unfold frame_dims. cbn [f_pot f_conv f_links]. auto. }
    rewrite AH. cbn [bindO]. set (g2 := with_buf g1 _) in *.
    assert (R2 : g_rec g2 = true) by (unfold g2; rewrite G1; reflexivity).
    unfold all_links. rewrite R2.
    destruct (at_head_sound n ports g2 (fun f => Ret (mkFrame (f_major f) (f_minor f) (f_decomp f) (f_result f) (f_pot f) (f_conv f)
        (map (fun d => mkLD LConfirm (ld_admit d) (ld_source d)) (f_links f)))) Sd2)
      as (f2 & f2' & F2 & HF2 & AH2 & Sd3).
    { intros f0 (D1 & D2 & D3). eexists. split; [reflexivity|].
      unfold frame_dims. cbn [f_pot f_conv f_links]. split; auto. split; auto.
      rewrite map_map. cbn [ld_admit ld_source]. exact D3. }
    exists (with_buf g2 (upd (g_buf g2) (Z.to_nat (g_head g2)) f2')). rewrite AH2.
    split; auto. split; auto. split; auto.
    assert (HD : (Z.to_nat (g_head g1) < List.length (g_buf g1))%nat)
      by (apply nth_error_Some; congruence).
    assert (M2 : f_major f2' = a /\ f_minor f2' = b /\ forall k d, nth_error (f_links f2') k = Some d -> ld_result d = LConfirm).
    { injection HF2 as <-. cbn [f_major f_minor f_links].
      assert (f2 = f').
      { unfold g2 in F2. cbn [with_buf g_buf g_head] in F2. rewrite upd_same in F2 by exact HD. congruence. }
      subst f2. injection HF as <-. cbn [f_major f_minor f_links]. split; auto. split; auto.
      intros k d E. rewrite nth_error_map in E. destruct (nth_error (f_links f) k); cbn in E; [|discriminate].
      injection E as <-. reflexivity. }
    split; [|unfold g2; rewrite G1; auto 10].
    split.
    { unfold g2. rewrite G1. cbn [with_buf g_valid g_size List.length]. lia. }
    intros j s E J. cbn [with_buf g_size g_buf] in *.
    assert (EG : slot (with_buf g2 (upd (g_buf g2) (Z.to_nat (g_head g2)) f2')) j = slot g1 j) by reflexivity.
    rewrite EG. change (g_head g2) with (g_head g1). change (g_size g2) with (g_size g1) in J.
    destruct j as [|j].
    + cbn in E. injection E as <-. exists f2'. rewrite (slot_0 n ports g1 Sd1). unfold g2. cbn [with_buf g_buf].
      rewrite upd_same by (rewrite upd_length; exact HD). split; auto.
      destruct M2 as (M2 & M3 & M4). unfold matches. cbn [s_major s_minor s_step s_pot s_conv s_contrib s_links].
      split; auto. split; auto. split; [intros; discriminate|]. split; [intros; discriminate|].
      split; [intros; discriminate|]. split; [intros; discriminate|]. exact M4.
    + cbn in E.
      assert (SL : slot g1 (Datatypes.S j) = slot g j).
      { unfold slot. rewrite G1. cbn [g_head g_size]. f_equal. rewrite Zminus_mod_idemp_l. f_equal. lia. }
      assert (J' : Z.of_nat j < g_size g) by (rewrite G1 in J; cbn [g_size] in J; lia).
      destruct (proj2 H j s E J') as (f0 & E0 & M0). exists f0. split; auto.
      assert (NE : Z.to_nat (g_head g1) <> slot g1 (Datatypes.S j)).
      { rewrite <- (slot_0 n ports g1 Sd1). intro X. apply (slot_inj n ports) in X; auto; [discriminate X|].
        rewrite G1. cbn [g_size]. lia. }
      unfold g2. cbn [with_buf g_buf]. rewrite !upd_other by exact NE. rewrite SL.
      rewrite G1. exact E0.
  - eapply K; [| intros ->; reflexivity | cbn [rec_call]; unfold record_potential; rewrite R; reflexivity].
    intros f (D1 & D2 & D3). cbv beta. rewrite assign_eq by congruence. cbn [bindO]. eexists. split; [reflexivity|].
    split; [unfold frame_dims; cbn [f_pot f_conv f_links]; auto|].
    intros s r -> (M1 & M2 & M3 & M4 & M5 & M6 & M7). cbn [spec_call]. eexists. split; [reflexivity|].
    unfold matches. cbn [f_major f_minor f_decomp f_result f_pot f_conv f_links s_major s_minor s_step s_pot s_conv s_contrib s_links].
    repeat (split; [now auto|]). split; [intros w E; injection E as <-; auto|]. auto.
  - eapply K; [| intros ->; reflexivity | cbn [rec_call]; unfold record_convergence; rewrite R; reflexivity].
    intros f (D1 & D2 & D3). cbv beta. rewrite assign_eq by congruence. cbn [bindO]. eexists. split; [reflexivity|].
    split; [unfold frame_dims; cbn [f_pot f_conv f_links]; auto|].
    intros s r -> (M1 & M2 & M3 & M4 & M5 & M6 & M7). cbn [spec_call]. eexists. split; [reflexivity|].
    unfold matches. cbn [f_major f_minor f_decomp f_result f_pot f_conv f_links s_major s_minor s_step s_pot s_conv s_contrib s_links].
    repeat (split; [now auto|]). split; [intros w E; injection E as <-; auto|]. auto.
  - eapply K; [| intros ->; reflexivity | cbn [rec_call]; unfold record_contributions; rewrite R; reflexivity].
    intros f (D1 & D2 & D3). cbv beta.
    destruct (contribute_ok ports (f_links f) ls D3 D) as (ds & C & Q1 & Q2). rewrite C. cbn [bindO].
    eexists. split; [reflexivity|].
    split; [unfold frame_dims; cbn [f_pot f_conv f_links]; rewrite Q1; auto|].
    intros s r -> (M1 & M2 & M3 & M4 & M5 & M6 & M7). cbn [spec_call]. eexists. split; [reflexivity|].
    unfold matches. cbn [f_major f_minor f_decomp f_result f_pot f_conv f_links s_major s_minor s_step s_pot s_conv s_contrib s_links].
    repeat (split; [now auto|]). split; [intros w E; injection E as <-; auto|].
    intros k d E. assert (X : nth_error (map (@ld_result A) ds) k = Some (ld_result d)) by (now apply map_nth_error).
    rewrite Q2, nth_error_map in X. destruct (nth_error (f_links f) k) as [d'|] eqn:Y; cbn in X; [|discriminate].
    injection X as X. rewrite <- X. eauto.
  - eapply K; [| intros ->; reflexivity | cbn [rec_call]; unfold record_link; rewrite R; reflexivity].
    intros f (D1 & D2 & D3). cbv beta.
    assert (LL : List.length (f_links f) = List.length ports).
    { clear - D3. remember (map (fun d => (ld_admit d, ld_source d)) (f_links f)) as z.
      transitivity (List.length z); [subst z; now rewrite map_length|]. clear Heqz. induction D3; cbn; auto. }
    destruct (nth_error (f_links f) k) as [d|] eqn:E; [|apply nth_error_None in E; lia].
    eexists. split; [reflexivity|].
    split; [unfold frame_dims; cbn [f_pot f_conv f_links];
      rewrite (link_dims_map n ports f k x d) by (auto; now repeat split); auto|].
    intros s r -> (M1 & M2 & M3 & M4 & M5 & M6 & M7). cbn [spec_call]. eexists. split; [reflexivity|].
    unfold matches. cbn [f_major f_minor f_decomp f_result f_pot f_conv f_links s_major s_minor s_step s_pot s_conv s_contrib s_links].
    rewrite (link_dims_map n ports f k x d) by (auto; now repeat split).
    repeat (split; [now auto|]). intros i d' E'. destruct (Nat.eqb_spec i k) as [->|NE].
    + rewrite upd_same in E' by lia. injection E' as <-. reflexivity.
    + rewrite upd_other in E' by auto. eauto.
  - eapply K; [| intros ->; reflexivity | cbn [rec_call]; unfold record_step; rewrite R; reflexivity].
    intros f (D1 & D2 & D3). cbv beta. eexists. split; [reflexivity|].
    split; [unfold frame_dims; cbn [f_pot f_conv f_links]; auto|].
    intros s r -> (M1 & M2 & M3 & M4 & M5 & M6 & M7). cbn [spec_call]. eexists. split; [reflexivity|].
    unfold matches. cbn [f_major f_minor f_decomp f_result f_pot f_conv f_links s_major s_minor s_step s_pot s_conv s_contrib s_links].
    repeat (split; [now auto|]). split; [intros w e E; injection E as <- <-; auto|]. auto.
Qed.

Lemma rec_run_ok n ports cs : forall g l, sound n ports g -> g_rec g = true -> holds g l ->
  Forall (dims n ports) cs ->
  exists g', rec_run cs g = Ret g' /\ sound n ports g' /\ g_rec g' = true /\ holds g' (recorded cs l) /\
    g_size g' = g_size g /\ g_state g' = g_state g /\ g_cmd g' = g_cmd g /\ g_steps g' = g_steps g /\ g_file g' = g_file g.
Proof.
  induction cs as [|c cs IH]; intros g l S R H D; cbn [rec_run recorded fold_left].
  - exists g. auto 10.
  - inversion D as [|c' cs' D1 D2]; subst.
    destruct (rec_call_ok n ports c g l S R H D1) as (g1 & E & S1 & R1 & H1 & Q1 & Q2 & Q3 & Q4 & Q5).
    rewrite E. cbn [bindO]. destruct (IH g1 (spec_call c l) S1 R1 H1 D2) as (g2 & E2 & S2 & R2 & H2 & P1 & P2 & P3 & P4 & P5).
    exists g2. unfold recorded in H2. rewrite P1, P2, P3, P4, P5. auto 10.
Qed.

(** ** Rendering *)
Lemma head_offset_ok n ports g (j : nat) : sound n ports g -> Z.of_nat j < g_size g ->
  head_offset g (- Z.of_nat j) = match nth_error (g_buf g) (slot g j) with Some f => Ret f | None => UB end.
Proof.
  intros (S1 & S2 & S3 & S4 & S5) J. unfold head_offset. rewrite su32 by lia.
  assert (E : (if g_head g + - Z.of_nat j <? 0 then s32 (u32 (g_head g + - Z.of_nat j + g_size g))
     else if s32 (g_size g) <=? g_head g + - Z.of_nat j
          then s32 (u32 (g_head g + - Z.of_nat j - g_size g)) else g_head g + - Z.of_nat j) = (g_head g - Z.of_nat j) mod g_size g).
  { destruct (Z.ltb_spec (g_head g + - Z.of_nat j) 0).
    - rewrite su32 by lia. apply Z.mod_unique with (q := -1); lia.
    - rewrite s32_id by lia. rewrite (proj2 (Z.leb_gt _ _)) by lia. rewrite Z.mod_small; lia. }
  rewrite E. unfold get. rewrite (proj2 (Z.ltb_ge _ _)) by (apply Z.mod_pos_bound; lia). reflexivity.
Qed.

Lemma rows_ok n ports g l : sound n ports g -> holds g l ->
  forall k, Z.of_nat k <= g_size g -> (k <= List.length l)%nat ->
  exists r, rows g (1 - Z.of_nat k) k = Ret r /\ Forall2 matches (rev (firstn k l)) r.
Proof.
  intros S H. induction k as [|k IH]; intros K1 K2.
  - exists []. cbn. split; auto.
  - destruct IH as (r & E & M); [lia|lia|].
    destruct (nth_error l k) as [s|] eqn:N; [|apply nth_error_None in N; lia].
    destruct (proj2 H k s N) as (f & F & Mf); [lia|].
    exists (f :: r). cbn [rows].
    replace (1 - Z.of_nat (Datatypes.S k)) with (- Z.of_nat k) by lia.
    rewrite (head_offset_ok n ports) by (auto; lia). rewrite F. cbn [bindO].
    replace (- Z.of_nat k + 1) with (1 - Z.of_nat k) by lia. rewrite E. cbn [bindO]. split; auto.
    assert (FS : firstn (Datatypes.S k) l = firstn k l ++ [s]).
    { clear - N. revert k N. induction l as [|x l IHl]; intros [|k] N; cbn in *; try discriminate.
      - injection N as ->. reflexivity.
      - f_equal. now apply IHl. }
    rewrite FS, rev_app_distr. cbn. constructor; auto.
Qed.

Lemma render_ok n ports g l : sound n ports g -> holds g l -> g_rec g = false ->
  exists r, render g = Ret (Rows r) /\ Forall2 matches (latest (g_size g) l) r.
Proof.
  intros S H R. unfold render. rewrite R. destruct H as [V H0].
  pose proof S as (S1 & _). set (k := Z.to_nat (g_valid g)).
  assert (KV : g_valid g = Z.of_nat k) by lia. rewrite KV.
  rewrite su32 by lia. replace (Z.to_nat (1 - (1 - Z.of_nat k))) with k by lia.
  destruct (rows_ok n ports g l S (conj V H0) k) as (r & E & M); [lia|lia|].
  rewrite E. cbn [bindO]. exists r. split; auto. unfold latest.
  replace (firstn (Z.to_nat (g_size g)) l) with (firstn k l); auto.
  destruct (Nat.le_gt_cases (Z.to_nat (g_size g)) (List.length l)).
  - f_equal. lia.
  - rewrite !firstn_all2 by lia. reflexivity.
Qed.

Lemma start_sound n ports g : 0 < g_size g < 2 ^ 31 -> List.length (g_buf g) = Z.to_nat (g_size g) ->
  Forall (frame_dims n ports) (g_buf g) ->
  sound n ports (start_logging g) /\ g_rec (start_logging g) = true /\ holds (start_logging g) [].
Proof.
  intros S L D. unfold start_logging. split; [|split; [reflexivity|]].
  - unfold sound. cbn [g_size g_buf g_head g_valid]. rewrite u32_id by lia. auto with zarith.
    split; auto. split; auto. split; auto. lia.
  - split; [cbn; lia|]. intros [|j] s E; discriminate E.
Qed.
End FACTS.
