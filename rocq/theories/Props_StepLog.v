(** Properties of the minor step log (C50, C86-C88). *)
From Coq Require Import List ZArith Bool Lia.
From Verif Require Import MsgQueue StepLog Spec_StepLog StepLogFacts.
Import ListNotations.
Local Open Scope Z_scope.

Section C50.
Context {A : Type}.
Implicit Types (g : Log A) (l : list (Step A)).

(** Everything a user, the solver, and the writing thread can do with an initialized log. *)
Inductive Event :=
| EMajor | ERec (c : Rec A) | EEnd | EAsync | EFreeze | ECmd (c : Command) | ESteps (n : Z).
Definition event_ok (n : nat) (ports : list nat) (e : Event) : Prop :=
  match e with ERec c => dims n ports c | ESteps k => 0 <= k < 2 ^ 31 | _ => True end.
Definition event (e : Event) (g : Log A) : outcome (Log A * list (Z * Output A)) :=
  match e with
  | EMajor => let! g := begin_major g in Ret (g, [])
  | ERec c => let! g := rec_call c g in Ret (g, [])
  | EEnd => let! g := end_major g in Ret (g, [])
  | EAsync => let! r := update_async g in Ret (fst r, match snd r with Some f => [f] | None => [] end)
  | EFreeze => Ret (update_freeze g, [])
  | ECmd c => Ret (set_cmd c g, [])
  | ESteps n => Ret (set_steps n g, [])
  end.
Fixpoint events (es : list Event) (g : Log A) : outcome (Log A * list (Z * Output A)) :=
  match es with
  | [] => Ret (g, [])
  | e :: es => let! r := event e g in let! q := events es (fst r) in Ret (fst q, snd r ++ snd q)
  end.

(** A log that was initialized with fewer than 2^31 steps and used in any way. *)
Definition reachable (n : nat) (ports : list nat) (g : Log A) : Prop :=
  exists zero c steps g0 es out, 0 <= steps < 2 ^ 31 /\ log_init zero c steps n ports = Some g0 /\
    Forall (event_ok n ports) es /\ events es g0 = Ret (g, out).

Definition inv (n : nat) (ports : list nat) g : Prop :=
  0 <= g_steps g < 2 ^ 31 /\
  ((g_size g = 0 /\ (exists f, g_buf g = [f] /\ frame_dims n ports f) /\ g_rec g = false /\
    g_state g = Paused /\ g_file g = None) \/
   (sound n ports g /\ (g_state g = Writing <-> g_file g <> None))).

Lemma inv_start n ports g : 0 <= g_steps g < 2 ^ 31 -> 0 < g_size g < 2 ^ 31 ->
  List.length (g_buf g) = Z.to_nat (g_size g) -> Forall (frame_dims n ports) (g_buf g) ->
  (g_state g = Writing <-> g_file g <> None) -> inv n ports (start_logging g).
Proof.
  intros T S L D W. split; [exact T|]. right. split; [|exact W].
  now destruct (start_sound n ports g S L D).
Qed.

Lemma inv_buf n ports g : inv n ports g -> exists f r, g_buf g = f :: r /\ frame_dims n ports f.
Proof.
  intros (_ & [(_ & (f & B & D) & _)|((S1 & S2 & S3 & _) & _)]).
  - exists f, []. auto.
  - destruct (g_buf g) as [|f r] eqn:B; [cbn in S2; lia|]. exists f, r. split; auto. now inversion S3.
Qed.

Lemma inv_freeze n ports g : inv n ports g -> inv n ports (update_freeze g).
Proof.
  intro I. destruct (inv_buf n ports g I) as (f & r & B & D). unfold update_freeze. rewrite B.
  destruct (negb (g_size g =? g_steps g) && (0 <? g_steps g)) eqn:E; auto.
  apply andb_true_iff in E. destruct E as [_ E]. apply Z.ltb_lt in E.
  destruct I as (T & I). apply inv_start; cbn [g_steps g_size g_buf g_state g_file]; auto.
  - lia.
  - apply repeat_length.
  - apply Forall_forall. intros x X. apply repeat_spec in X. now subst.
  - destruct I as [(_ & _ & _ & -> & ->)|(_ & W)]; auto. split; [discriminate|congruence].
Qed.

Lemma frame0_dims (zero : A) n ports : frame_dims n ports (frame0 zero n ports).
Proof.
  unfold frame_dims, frame0. cbn [f_pot f_conv f_links]. rewrite !repeat_length. split; auto. split; auto.
  rewrite map_map. cbn [ld_admit ld_source]. induction ports; cbn; constructor; auto.
  split; cbn [fst snd]; apply repeat_length.
Qed.

Lemma inv_init (zero : A) c steps n ports g : 0 <= steps < 2 ^ 31 -> log_init zero c steps n ports = Some g ->
  inv n ports g.
Proof.
  intros S E. unfold log_init in E.
  destruct ((n =? 0)%nat || (List.length ports =? 0)%nat); [discriminate|].
  assert (I : inv n ports (update_freeze (mkLog c steps Paused false [frame0 zero n ports] 0 (u32 (0 - 1)) 0 None))).
  { apply inv_freeze. split; [exact S|]. left. cbn [g_size g_buf g_rec g_state g_file].
    split; auto. split; [|auto]. exists (frame0 zero n ports). split; auto. apply frame0_dims. }
  destruct c; try discriminate; destruct ((steps =? 0) && _); try discriminate; injection E as <-; exact I.
Qed.

Lemma sound_dump n ports g : sound n ports g ->
  exists f, head g = Ret f /\
   initiate_dump g = Ret (mkLog (g_cmd g) (g_steps g) Writing false (g_buf g) (g_size g) (g_head g) (g_valid g) (Some (f_major f))).
Proof.
  intro S. destruct (sound_head n ports g S) as (f & E & _ & _). exists f. split; auto.
  unfold initiate_dump. change (head (with_state (stop_logging g) Writing)) with (head g).
  rewrite E. reflexivity.
Qed.

Lemma inv_major n ports g : inv n ports g -> exists g', begin_major g = Ret g' /\ inv n ports g'.
Proof.
  intros (T & [(Z0 & B & R & St & F)|(S & W)]).
  - unfold begin_major. rewrite Z0. cbn [Z.eqb with_state with_cmd g_state g_cmd].
    eexists. split; [reflexivity|]. split; [exact T|]. left. cbn. auto.
  - unfold begin_major. pose proof S as (S1 & S2 & S3 & S4 & S5). rewrite (proj2 (Z.eqb_neq _ _)) by lia.
    assert (K : forall s g1, s <> Writing -> g_state g <> Writing ->
      (g1 = g \/ g1 = start_logging g \/ g1 = stop_logging g) -> inv n ports (with_state g1 s)).
    { intros s g1 NW NW' E.
      assert (FN : g_file g = None) by (destruct (g_file g) eqn:X; auto; destruct NW'; apply W; congruence).
      destruct E as [-> | [-> | ->]]; (split; [exact T|]); right.
      - split; [exact S|]. cbn [with_state g_state g_file]. rewrite FN. split; congruence.
      - split; [exact (proj1 (start_sound n ports g S1 S2 S3))|].
        cbn [with_state start_logging g_state g_file]. rewrite FN. split; congruence.
      - split; [exact S|]. cbn [with_state stop_logging g_state g_file]. rewrite FN. split; congruence. }
    assert (K2 : g_state g <> Writing -> exists g', match g_cmd g with
      | CPause => Ret (with_state (stop_logging g) Paused)
      | CAuto => Ret (with_state (match g_state g with Paused => start_logging g | _ => g end) RecAuto)
      | CSnapMode => Ret (with_state (match g_state g with Paused => start_logging g | _ => g end) RecSnap)
      | CSnap => initiate_dump (with_cmd g match g_state g with Paused => CPause | RecAuto => CAuto | _ => CSnapMode end)
      | BadCmd => Ret g end = Ret g' /\ inv n ports g').
    { intro NW. destruct (g_cmd g).
      - eexists. split; [reflexivity|]. apply K; auto. discriminate.
      - eexists. split; [reflexivity|]. apply K; auto; [discriminate|]. destruct (g_state g); auto.
      - eexists. split; [reflexivity|]. apply K; auto; [discriminate|]. destruct (g_state g); auto.
      - destruct (sound_dump n ports (with_cmd g match g_state g with Paused => CPause | RecAuto => CAuto | _ => CSnapMode end))
          as (f & _ & E); [exact S|]. rewrite E. eexists. split; [reflexivity|]. split; [exact T|]. right.
        split; [exact S|]. cbn [g_state g_file]. split; [discriminate|reflexivity].
      - eexists. split; [reflexivity|]. split; [exact T|]. right. auto. }
    destruct (g_state g) eqn:St; try (apply K2; discriminate).
    exists g. split; auto. split; [exact T|]. right. rewrite St. auto.
Qed.

Lemma inv_rec n ports c g : inv n ports g -> dims n ports c -> exists g', rec_call c g = Ret g' /\ inv n ports g'.
Proof.
  intros I0 D. pose proof I0 as (T & I). destruct (g_rec g) eqn:R.
  - destruct I as [(_ & _ & R0 & _)|(S & W)]; [congruence|].
    (* a list of steps that the log holds: one per valid step *)
    assert (K : forall g l, sound n ports g -> g_rec g = true -> holds g l -> dims n ports c ->
       exists g', rec_call c g = Ret g' /\ sound n ports g' /\ g_state g' = g_state g /\ g_file g' = g_file g /\ g_steps g' = g_steps g).
    { intros h l H1 H2 H3 H4. destruct (rec_call_ok n ports c h l H1 H2 H3 H4) as (g' & E & S' & _ & _ & _ & Q1 & _ & Q2 & Q3).
      exists g'. auto. }
    (* the state of the ring does not matter here, so use the list of matching steps *)
    assert (X : exists l, holds g l).
    { pose proof S as (S1 & S2 & S3 & S4 & S5).
      set (spec_of := fun f : Frame A => mkStep (A:=A) (f_major f) (f_minor f) None None None None
        (fun k => match nth_error (f_links f) k with Some d => ld_result d | None => LConfirm end)).
      assert (N : forall j, exists f, Z.of_nat j < g_size g -> nth_error (g_buf g) (slot g j) = Some f).
      { intro j. destruct (nth_error (g_buf g) (slot g j)) as [f|] eqn:E; [exists f; auto|].
        destruct (sound_head n ports g S) as (f & _). exists f. intro J. apply nth_error_None in E.
        unfold slot in E. pose proof (Z.mod_pos_bound (g_head g - Z.of_nat j) (g_size g) ltac:(lia)). lia. }
      assert (L : forall k, Z.of_nat k <= g_size g -> exists l, List.length l = k /\
         forall j s, nth_error l j = Some s -> exists f, nth_error (g_buf g) (slot g j) = Some f /\ matches s f).
      { induction k as [|k IH]; intro K1.
        - exists []. split; auto. intros [|j] s E; discriminate E.
        - destruct IH as (l & L1 & L2); [lia|]. destruct (N k) as (f & F).
          exists (l ++ [spec_of f]). split; [rewrite app_length; cbn; lia|].
          intros j s E. destruct (Nat.lt_ge_cases j k).
          + rewrite nth_error_app1 in E by lia. eauto.
          + rewrite nth_error_app2 in E by lia. destruct (j - List.length l)%nat as [|q] eqn:Q; cbn in E; [|destruct q; discriminate E].
            injection E as <-. assert (j = k) by lia. subst j. exists f. split; [apply F; lia|].
            unfold matches, spec_of. cbn. repeat (split; [first [reflexivity | intros; discriminate]|]).
            intros i d X. now rewrite X. }
      destruct (L (Z.to_nat (g_valid g))) as (l & L1 & L2); [lia|]. exists l. split; [lia|]. intros j s E _. eauto. }
    destruct X as (l & H). destruct (K g l S R H D) as (g' & E & S' & Q1 & Q2 & Q3). exists g'. split; auto.
    split; [rewrite Q3; exact T|]. right. rewrite Q1, Q2. auto.
  - exists g. split; [|exact I0]. destruct c; cbn [rec_call];
      unfold begin_minor, record_potential, record_convergence, record_contributions, record_link, record_step; now rewrite R.
Qed.

Lemma inv_end n ports g : inv n ports g -> exists g', end_major g = Ret g' /\ inv n ports g'.
Proof.
  intros (T & [(Z0 & B & R & St & F)|(S & W)]).
  - unfold end_major. rewrite St. exists g. split; [reflexivity|]. split; [exact T|]. left. auto.
  - unfold end_major. destruct (g_state g) eqn:St; try (exists g; split; auto; split; [exact T|]; right; rewrite St; auto).
    destruct (sound_dump n ports g S) as (f & E & Dp). rewrite E. cbn [bindO].
    destruct (success (f_result f)).
    + exists g. split; auto. split; [exact T|]. right. rewrite St. auto.
    + rewrite Dp. eexists. split; [reflexivity|]. split; [exact T|]. right. split; [exact S|].
      cbn [g_state g_file]. split; [discriminate|reflexivity].
Qed.

Lemma rows_total n ports g : sound n ports g -> forall k, Z.of_nat k <= g_size g -> exists r, rows g (1 - Z.of_nat k) k = Ret r.
Proof.
  intros S. induction k as [|k IH]; intro K; [eexists; reflexivity|].
  destruct IH as (r & E); [lia|]. cbn [rows]. replace (1 - Z.of_nat (Datatypes.S k)) with (- Z.of_nat k) by lia.
  rewrite (head_offset_ok n ports) by (auto; lia).
  destruct (nth_error (g_buf g) (slot g k)) as [f|] eqn:N.
  - cbn [bindO]. replace (- Z.of_nat k + 1) with (1 - Z.of_nat k) by lia. rewrite E. cbn [bindO]. eauto.
  - apply nth_error_None in N. unfold slot in N. destruct S as (S1 & S2 & _).
    pose proof (Z.mod_pos_bound (g_head g - Z.of_nat k) (g_size g) ltac:(lia)). lia.
Qed.

Lemma inv_async n ports g : inv n ports g -> exists r, update_async g = Ret r /\ inv n ports (fst r).
Proof.
  intros (T & [(Z0 & B & R & St & F)|(S & W)]).
  - unfold update_async. rewrite F. exists (g, None). split; [reflexivity|]. split; [exact T|]. left. auto.
  - unfold update_async. destruct (g_file g) as [name|] eqn:F.
    + assert (RT : exists o, render g = Ret o).
      { unfold render. destruct (g_rec g); [eauto|]. pose proof S as (S1 & _ & _ & _ & S5).
        rewrite su32 by lia. replace (1 - (1 - g_valid g)) with (Z.of_nat (Z.to_nat (g_valid g))) by lia.
        rewrite Nat2Z.id. destruct (rows_total n ports g S (Z.to_nat (g_valid g))) as (r & E); [lia|].
        rewrite Z2Nat.id in E by lia. rewrite E. cbn [bindO]. eauto. }
      destruct RT as (o & E). rewrite E. cbn [bindO]. eexists. split; [reflexivity|]. cbn [fst].
      split; [exact T|]. right. split; [exact S|]. cbn [g_state g_file]. split; congruence.
    + exists (g, None). split; auto. split; [exact T|]. right. cbn [fst]. rewrite F. auto.
Qed.

Lemma events_inv n ports es : forall g, inv n ports g -> Forall (event_ok n ports) es ->
  exists r, events es g = Ret r /\ inv n ports (fst r).
Proof.
  induction es as [|e es IH]; intros g I O.
  - exists (g, []). auto.
  - inversion O as [|e' es' O1 O2]; subst. cbn [events].
    assert (K : exists r, event e g = Ret r /\ inv n ports (fst r)).
    { destruct e; cbn [event event_ok] in *.
      - destruct (inv_major n ports g I) as (g' & E & I'). rewrite E. eexists. split; [reflexivity|exact I'].
      - destruct (inv_rec n ports c g I O1) as (g' & E & I'). rewrite E. eexists. split; [reflexivity|exact I'].
      - destruct (inv_end n ports g I) as (g' & E & I'). rewrite E. eexists. split; [reflexivity|exact I'].
      - destruct (inv_async n ports g I) as (r & E & I'). rewrite E. eexists. split; [reflexivity|exact I'].
      - eexists. split; [reflexivity|]. now apply inv_freeze.
      - eexists. split; [reflexivity|]. exact I.
      - eexists. split; [reflexivity|]. destruct I as (T & I). split; [exact O1|exact I]. }
    destruct K as (r & E & I'). rewrite E. cbn [bindO]. destruct (IH (fst r) I' O2) as (q & E2 & I2).
    rewrite E2. cbn [bindO]. eexists. split; [reflexivity|exact I2].
Qed.

Lemma reachable_inv n ports g : reachable n ports g -> inv n ports g.
Proof.
  intros (zero & c & steps & g0 & es & out & S & I & O & E).
  destruct (events_inv n ports es g0 (inv_init zero c steps n ports g0 S I) O) as (r & E2 & I2).
  rewrite E in E2. injection E2 as <-. exact I2.
Qed.

(** C86: whatever the user, the solver and the writing thread do, the log never indexes
    outside its buffer. *)
Theorem C86_safe : forall zero c steps n ports g es, 0 <= steps < 2 ^ 31 ->
  log_init zero c steps n ports = Some g -> Forall (event_ok n ports) es ->
  exists g' out, events es g = Ret (g', out).
Proof.
  intros zero c steps n ports g es S I O.
  destruct (events_inv n ports es g (inv_init zero c steps n ports g S I) O) as ([g' out] & E & _). eauto.
Qed.

(** The ring: from the start of recording, the rows that are rendered are the latest
    steps that were recorded, oldest first. *)
Theorem C50_ring : forall n ports g cs, reachable n ports g -> 0 < g_size g -> Forall (dims n ports) cs ->
  exists g' r, rec_run cs (start_logging g) = Ret g' /\ render (stop_logging g') = Ret (Rows r) /\
    Forall2 matches (latest (g_size g) (recorded cs [])) r.
Proof.
  intros n ports g cs I P D. destruct (reachable_inv n ports g I) as (_ & [(Z0 & _)|(S & _)]); [lia|].
  destruct S as (S1 & S2 & S3 & _).
  destruct (start_sound n ports g S1 S2 S3) as (Sa & Ra & Ha).
  destruct (rec_run_ok n ports cs _ [] Sa Ra Ha D) as (g' & E & S' & R' & H' & Q & _).
  destruct (render_ok n ports (stop_logging g') (recorded cs [])) as (r & E2 & M); [exact S'|exact H'|reflexivity|].
  exists g', r. split; auto. split; auto. cbn [stop_logging g_size] in M. rewrite Q in M. exact M.
Qed.

(** A major step of the solver as the log sees it. *)
Definition major (cs : list (Rec A)) (g : Log A) : outcome (Log A) :=
  let! g := begin_major g in let! g := rec_run cs g in end_major g.
Fixpoint majors (css : list (list (Rec A))) (g : Log A) : outcome (Log A) :=
  match css with [] => Ret g | cs :: r => let! g := major cs g in majors r g end.

(** The newest step in the list ended with the result. *)
Definition settled (p : StepResult -> Prop) (l : list (Step A)) : Prop :=
  exists s r d x, l = s :: r /\ s_step s = Some (d, x) /\ p x.
Fixpoint quiet (l : list (Step A)) (css : list (list (Rec A))) : Prop :=
  match css with
  | [] => True
  | cs :: r => settled (fun x => x = Success) (recorded cs l) /\ quiet (recorded cs l) r
  end.

Lemma recorded_app cs ds l : recorded (A:=A) (cs ++ ds) l = recorded ds (recorded cs l).
Proof. apply fold_left_app. Qed.

(** A log in the middle of a recording. *)
Definition recording n ports (c : Command) (s : Mode) (l : list (Step A)) g : Prop :=
  sound n ports g /\ g_rec g = true /\ holds g l /\ g_cmd g = c /\ g_state g = s /\ g_file g = None.

Lemma holds_state g s l : holds g l -> holds (with_state g s) l.
Proof. intro H. exact H. Qed.
Lemma settled_head p n ports g l : sound n ports g -> holds g l -> settled p l ->
  exists f, head g = Ret f /\ p (f_result f) /\ exists s r, l = s :: r /\ f_major f = s_major s.
Proof.
  intros S [V H] (s & r & d & x & -> & E & P). destruct (sound_head n ports g S) as (f & Hd & _ & N).
  destruct (H 0%nat s eq_refl) as (f0 & F & M); [destruct S as (S1 & _); lia|].
  rewrite (slot_0 n ports g S), N in F. injection F as <-. exists f. split; auto.
  destruct M as (M1 & _ & M3 & _). destruct (M3 d x E) as [_ ->]. split; auto. eauto.
Qed.

Lemma major_start n ports g c s : (c = CAuto /\ s = RecAuto \/ c = CSnapMode /\ s = RecSnap) ->
  sound n ports g -> g_file g = None ->
  (g_state g = Paused /\ g_cmd g = c -> exists g', begin_major g = Ret g' /\ recording n ports c s [] g' /\ g_size g' = g_size g) /\
  (forall l, recording n ports c s l g -> exists g', begin_major g = Ret g' /\ recording n ports c s l g' /\ g_size g' = g_size g).
Proof.
  intros CS S F. pose proof S as (S1 & S2 & S3 & _).
  destruct (start_sound n ports g S1 S2 S3) as (Sa & Ra & Ha).
  split.
  - intros (St & C). unfold begin_major. rewrite (proj2 (Z.eqb_neq _ _)) by lia. rewrite St, C.
    destruct CS as [[-> ->]|[-> ->]]; (eexists; split; [reflexivity|]; split; [|reflexivity];
      split; [exact Sa|]; split; [exact Ra|]; split; [apply holds_state; exact Ha|];
      cbn [with_state start_logging g_cmd g_state g_file]; auto).
  - intros l (_ & R & H & C & St & _). unfold begin_major. rewrite (proj2 (Z.eqb_neq _ _)) by lia. rewrite St, C.
    destruct CS as [[-> ->]|[-> ->]]; (eexists; split; [reflexivity|]; split; [|reflexivity];
      split; [exact S|]; split; [exact R|]; split; [apply holds_state; exact H|];
      cbn [with_state start_logging g_cmd g_state g_file]; auto).
Qed.

Lemma recs n ports c s l cs g : recording n ports c s l g -> Forall (dims n ports) cs ->
  exists g', rec_run cs g = Ret g' /\ recording n ports c s (recorded cs l) g' /\ g_size g' = g_size g.
Proof.
  intros (S & R & H & C & St & F) D.
  destruct (rec_run_ok n ports cs g l S R H D) as (g' & E & S' & R' & H' & Q1 & Q2 & Q3 & Q4 & Q5).
  exists g'. split; auto. split; auto. unfold recording. rewrite Q2, Q3, Q5. auto 10.
Qed.

(** What is written once a dump was initiated. *)
Lemma dumped n ports c s l g : recording n ports c s l g -> forall c', exists f g' r,
  head g = Ret f /\ initiate_dump (with_cmd g c') = Ret g' /\ g_state g' = Writing /\ g_rec g' = false /\ g_cmd g' = c' /\
  g_size g' = g_size g /\
  exists g'', update_async g' = Ret (g'', Some (f_major f, Rows r)) /\
    g_state g'' = Paused /\ g_cmd g'' = c' /\ g_file g'' = None /\ Forall2 matches (latest (g_size g) l) r.
Proof.
  intros (S & R & H & C & St & F) c'. destruct (sound_dump n ports (with_cmd g c') S) as (f & E & Dp).
  destruct (render_ok n ports (mkLog c' (g_steps g) Writing false (g_buf g) (g_size g) (g_head g) (g_valid g) (Some (f_major f))) l)
    as (r & Er & M); [exact S|exact H|reflexivity|].
  exists f, (mkLog c' (g_steps g) Writing false (g_buf g) (g_size g) (g_head g) (g_valid g) (Some (f_major f))), r.
  split; [exact E|]. split; [exact Dp|]. split; auto. split; auto. split; auto. split; auto.
  eexists. unfold update_async. cbn [g_file]. rewrite Er. cbn [bindO]. split; [reflexivity|]. cbn. auto.
Qed.

Lemma auto_quiet n ports : forall css g l, recording n ports CAuto RecAuto l g ->
  Forall (Forall (dims n ports)) css -> quiet l css ->
  exists g', majors css g = Ret g' /\ recording n ports CAuto RecAuto (recorded (concat css) l) g' /\ g_size g' = g_size g.
Proof.
  induction css as [|cs css IH]; intros g l Rg D Q.
  - exists g. auto.
  - inversion D as [|x y D1 D2]; subst. destruct Q as (Q1 & Q2).
    destruct (major_start n ports g CAuto RecAuto) as (_ & MS); [auto| apply Rg | apply Rg |].
    destruct (MS l Rg) as (g1 & E1 & R1 & Z1).
    destruct (recs n ports _ _ l cs g1 R1 D1) as (g2 & E2 & R2 & Z2).
    assert (E3 : end_major g2 = Ret g2).
    { destruct R2 as (S2 & _ & H2 & _ & St & _). unfold end_major. rewrite St.
      destruct (settled_head _ n ports g2 _ S2 H2 Q1) as (f & Hd & P & _). rewrite Hd. cbn [bindO]. now rewrite P. }
    destruct (IH g2 (recorded cs l) R2 D2 Q2) as (g3 & E4 & R3 & Z3).
    exists g3. cbn [majors]. unfold major. rewrite E1. cbn [bindO]. rewrite E2. cbn [bindO]. rewrite E3. cbn [bindO].
    split; auto. cbn [concat]. rewrite recorded_app. split; [exact R3|lia].
Qed.

Lemma majors_app css cs g : majors (css ++ [cs]) g = (let! g := majors css g in major cs g).
Proof.
  revert g. induction css as [|x css IH]; intro g; cbn [app majors].
  - destruct (major cs g) as [g0| |] eqn:X; cbn [bindO]; rewrite X; reflexivity.
  - destruct (major x g) as [g'| |]; cbn [bindO]; auto.
Qed.

(** RECORD_AUTO: the log keeps recording over the major steps that end in success; the
    first that does not makes a file of the latest steps, named after it, and pauses. *)
Theorem C50_auto : forall n ports g css cs, reachable n ports g -> 0 < g_size g ->
  g_state g = Paused -> g_cmd g = CAuto ->
  Forall (Forall (dims n ports)) (css ++ [cs]) ->
  quiet [] css -> settled (fun x => x <> Success) (recorded cs (recorded (concat css) [])) ->
  exists g1 name r g2, majors (css ++ [cs]) g = Ret g1 /\ g_state g1 = Writing /\
    update_async g1 = Ret (g2, Some (name, Rows r)) /\ g_state g2 = Paused /\ g_cmd g2 = CAuto /\
    Forall2 matches (latest (g_size g) (recorded (concat (css ++ [cs])) [])) r /\
    option_map (@s_major A) (hd_error (recorded (concat (css ++ [cs])) [])) = Some name.
Proof.
  intros n ports g css cs I P St C D Q T.
  destruct (reachable_inv n ports g I) as (_ & [(Z0 & _)|(S & W)]); [lia|].
  assert (F : g_file g = None) by (destruct (g_file g) eqn:X; auto; exfalso; assert (g_state g = Writing) by (apply W; discriminate); congruence).
  rewrite concat_app. cbn [concat]. rewrite app_nil_r, recorded_app, majors_app.
  apply Forall_app in D. destruct D as (D1 & D2). inversion D2 as [|x y D3 _]; subst.
  destruct (major_start n ports g CAuto RecAuto) as (MS & _); [auto|exact S|exact F|].
  destruct (MS (conj St C)) as (h & Eh & Rh & Zh).
  (* the first begin_major starts; it does nothing to a log that already records *)
  assert (IDEM : begin_major h = Ret h).
  { unfold begin_major in Eh |- *. destruct S as (S1 & _). rewrite (proj2 (Z.eqb_neq _ _)) in Eh by lia. rewrite St, C in Eh.
    injection Eh as <-. cbn [with_state start_logging g_size g_state g_cmd]. rewrite (proj2 (Z.eqb_neq _ _)) by lia. cbn [with_state start_logging g_size g_state g_cmd]. rewrite C. reflexivity. }
  assert (K : majors (css ++ [cs]) g = majors (css ++ [cs]) h).
  { destruct css as [|c0 css']; cbn [app majors]; unfold major; rewrite Eh, IDEM; reflexivity. }
  rewrite <- majors_app, K, majors_app.
  destruct (auto_quiet n ports css h [] Rh D1 Q) as (g1 & E1 & R1 & Z1). rewrite E1. cbn [bindO].
  set (l := recorded (concat css) []) in *.
  destruct (major_start n ports g1 CAuto RecAuto) as (_ & MS1); [auto| apply R1 | apply R1 |].
  destruct (MS1 l R1) as (g2 & E2 & R2 & Z2).
  destruct (recs n ports _ _ l cs g2 R2 D3) as (g3 & E3 & R3 & Z3).
  unfold major. rewrite E2. cbn [bindO]. rewrite E3. cbn [bindO].
  destruct (dumped n ports _ _ _ g3 R3 CAuto) as (f & g4 & r & Hf & E4 & S4 & _ & _ & Z4 & g5 & E5 & S5 & C5 & _ & M5).
  assert (WC : with_cmd g3 CAuto = g3).
  { destruct R3 as (_ & _ & _ & C3 & _). destruct g3. cbn in C3. subst. reflexivity. }
  rewrite WC in E4.
  destruct R3 as (S3 & _ & H3 & _ & St3 & _).
  destruct (settled_head _ n ports g3 _ S3 H3 T) as (f' & Hd & Pf & s & q & Lq & Mj).
  rewrite Hf in Hd. injection Hd as <-.
  unfold end_major. rewrite St3, Hf. cbn [bindO].
  destruct (success (f_result f)) eqn:Sc; [destruct (f_result f); cbn in Sc; congruence|].
  exists g4, (f_major f), r, g5. split; [exact E4|]. split; auto. split; auto. split; auto. split; auto.
  split.
  - replace (g_size g) with (g_size g3) by lia. exact M5.
  - rewrite Lq, Mj. reflexivity.
Qed.

(** RECORD_SNAP followed by SNAP: the file has the latest steps of all the major steps
    since the recording began; the command goes back to RECORD_SNAP. *)
Lemma snap_run n ports : forall css g l, recording n ports CSnapMode RecSnap l g ->
  Forall (Forall (dims n ports)) css ->
  exists g', majors css g = Ret g' /\ recording n ports CSnapMode RecSnap (recorded (concat css) l) g' /\ g_size g' = g_size g.
Proof.
  induction css as [|cs css IH]; intros g l Rg D.
  - exists g. auto.
  - inversion D as [|x y D1 D2]; subst.
    destruct (major_start n ports g CSnapMode RecSnap) as (_ & MS); [auto| apply Rg | apply Rg |].
    destruct (MS l Rg) as (g1 & E1 & R1 & Z1).
    destruct (recs n ports _ _ l cs g1 R1 D1) as (g2 & E2 & R2 & Z2).
    assert (E3 : end_major g2 = Ret g2).
    { destruct R2 as (S2 & _ & H2 & _ & St & _). unfold end_major. now rewrite St. }
    destruct (IH g2 (recorded cs l) R2 D2) as (g3 & E4 & R3 & Z3).
    exists g3. cbn [majors]. unfold major. rewrite E1. cbn [bindO]. rewrite E2. cbn [bindO]. rewrite E3. cbn [bindO].
    split; auto. cbn [concat]. rewrite recorded_app. split; [exact R3|lia].
Qed.

Theorem C50_snap : forall n ports g cs css ds, reachable n ports g -> 0 < g_size g ->
  g_state g = Paused -> g_cmd g = CSnapMode ->
  Forall (Forall (dims n ports)) (cs :: css) ->
  exists g1 g2 name r g3, majors (cs :: css) g = Ret g1 /\
    major ds (set_cmd CSnap g1) = Ret g2 /\ g_state g2 = Writing /\
    update_async g2 = Ret (g3, Some (name, Rows r)) /\ g_state g3 = Paused /\ g_cmd g3 = CSnapMode /\
    Forall2 matches (latest (g_size g) (recorded (concat (cs :: css)) [])) r.
Proof.
  intros n ports g cs css ds I P St C D.
  destruct (reachable_inv n ports g I) as (_ & [(Z0 & _)|(S & W)]); [lia|].
  assert (F : g_file g = None) by (destruct (g_file g) eqn:X; auto; exfalso; assert (g_state g = Writing) by (apply W; discriminate); congruence).
  destruct (major_start n ports g CSnapMode RecSnap) as (MS & _); [auto|exact S|exact F|].
  destruct (MS (conj St C)) as (h & Eh & Rh & Zh).
  assert (IDEM : begin_major h = Ret h).
  { unfold begin_major in Eh |- *. destruct S as (S1 & _). rewrite (proj2 (Z.eqb_neq _ _)) in Eh by lia. rewrite St, C in Eh.
    injection Eh as <-. cbn [with_state start_logging g_size g_state g_cmd]. rewrite (proj2 (Z.eqb_neq _ _)) by lia. cbn [with_state start_logging g_size g_state g_cmd]. rewrite C. reflexivity. }
  assert (K : majors (cs :: css) g = majors (cs :: css) h) by (cbn [majors]; unfold major; now rewrite Eh, IDEM).
  rewrite K. destruct (snap_run n ports (cs :: css) h [] Rh D) as (g1 & E1 & R1 & Z1).
  set (l := recorded (concat (cs :: css)) []) in *.
  destruct (dumped n ports _ _ _ g1 R1 CSnapMode) as (f & g4 & r & Hf & E4 & S4 & Rec4 & C4 & Z4 & g5 & E5 & S5 & C5 & _ & M5).
  assert (BM : begin_major (set_cmd CSnap g1) = Ret g4).
  { destruct R1 as (S1 & _ & _ & _ & St1 & _). pose proof S1 as (S11 & _). unfold begin_major.
    cbn [set_cmd with_cmd g_size g_state g_cmd]. rewrite (proj2 (Z.eqb_neq _ _)) by lia. cbn [set_cmd with_cmd g_size g_state g_cmd]. rewrite St1. exact E4. }
  assert (RR : rec_run ds g4 = Ret g4).
  { clear - Rec4. induction ds as [|c ds IH]; auto. cbn [rec_run].
    assert (E : rec_call c g4 = Ret g4) by (destruct c; cbn [rec_call];
      unfold begin_minor, record_potential, record_convergence, record_contributions, record_link, record_step; now rewrite Rec4).
    rewrite E. cbn [bindO]. exact IH. }
  exists g1, g4, (f_major f), r, g5. split; auto. split.
  { unfold major. rewrite BM. cbn [bindO]. rewrite RR. cbn [bindO]. unfold end_major. now rewrite S4. }
  split; auto. split; auto. split; auto. split; auto. replace (g_size g) with (g_size g1) by lia. exact M5.
Qed.

(** C87: after beginMajorStep the log records exactly when its state is one of the two
    recording states, whatever happened before, so long as the number of steps was not
    changed and the commands are the enumerated ones. *)
Definition steady (e : Event) : Prop :=
  match e with EFreeze => False | ECmd BadCmd => False | _ => True end.

Definition consistent g : Prop :=
  g_cmd g <> BadCmd /\
  (match g_state g with Paused => True | RecAuto | RecSnap => g_rec g = true | Writing => g_rec g = false end) /\ (g_size g = 0 -> g_state g = Paused).

Lemma rec_call_keeps c g g' : rec_call c g = Ret g' -> g_cmd g' = g_cmd g /\ g_state g' = g_state g /\ g_rec g' = g_rec g /\ g_size g' = g_size g.
Proof.
  assert (H : forall g h g', at_head (A:=A) g h = Ret g' -> g_cmd g' = g_cmd g /\ g_state g' = g_state g /\ g_rec g' = g_rec g /\ g_size g' = g_size g).
  { intros g0 h g1 E. unfold at_head in E. destruct (head g0); cbn [bindO] in E; try discriminate.
    destruct (h a); cbn [bindO] in E; try discriminate. injection E as <-. auto. }
  destruct c; cbn [rec_call]; unfold begin_minor, record_potential, record_convergence, record_contributions, record_link, record_step;
    destruct (g_rec g) eqn:R; try (intro E; injection E as <-; auto); try (intro E; apply H in E; rewrite R in E; exact E).
  intro E. destruct (at_head (step g) _) as [g1| |] eqn:E1; cbn [bindO] in E; try discriminate.
  apply H in E1. unfold all_links in E. apply H in E. destruct E as (-> & -> & -> & ->). destruct E1 as (-> & -> & -> & ->).
  unfold step. rewrite R. auto.
Qed.

Lemma consistent_event e g r : steady e -> consistent g -> event e g = Ret r -> consistent (fst r) /\
  (e = EMajor -> (g_rec (fst r) = true <-> g_state (fst r) = RecAuto \/ g_state (fst r) = RecSnap)).
Proof.
  intros St (B & R & Z) E. destruct e; cbn [event] in E.
  - destruct (begin_major g) as [g1| |] eqn:E1; cbn [bindO] in E; try discriminate. injection E as <-. cbn [fst].
    unfold begin_major in E1. destruct (Z.eqb_spec (g_size g) 0) as [E0|E0].
    + cbn [with_state with_cmd g_state g_cmd] in E1. injection E1 as <-. unfold consistent. cbn. split; [split; [discriminate|auto]|].
      intros _. split; [discriminate|]. intros [H|H]; discriminate H.
    + assert (K : g_state g <> Writing -> match g_cmd g with
        | CPause => Ret (with_state (stop_logging g) Paused)
        | CAuto => Ret (with_state (match g_state g with Paused => start_logging g | _ => g end) RecAuto)
        | CSnapMode => Ret (with_state (match g_state g with Paused => start_logging g | _ => g end) RecSnap)
        | CSnap => initiate_dump (with_cmd g match g_state g with Paused => CPause | RecAuto => CAuto | _ => CSnapMode end)
        | BadCmd => Ret g end = Ret g1 -> consistent g1 /\ (EMajor = EMajor -> (g_rec g1 = true <-> g_state g1 = RecAuto \/ g_state g1 = RecSnap))).
      { intros NW X. destruct (g_cmd g) eqn:C.
        - injection X as <-. unfold consistent. cbn. rewrite C. split; [split; [discriminate|auto]|].
          intros _. split; [discriminate|]. intros [H|H]; discriminate H.
        - injection X as <-. unfold consistent. destruct (g_state g) eqn:S0; cbn; rewrite ?C, ?R; intuition congruence.
        - injection X as <-. unfold consistent. destruct (g_state g) eqn:S0; cbn; rewrite ?C, ?R; intuition congruence.
        - unfold initiate_dump in X. cbn [with_state with_cmd stop_logging] in X.
          match type of X with bindO ?h _ = _ => destruct h; cbn [bindO] in X; try discriminate end.
          injection X as <-. unfold consistent. cbn. destruct (g_state g); intuition (discriminate || congruence).
        - congruence. }
      destruct (g_state g) eqn:S0; try (apply K; [discriminate|exact E1]).
      injection E1 as <-. unfold consistent. rewrite S0, R. intuition (discriminate || congruence).
  - destruct (rec_call c g) as [g1| |] eqn:E1; cbn [bindO] in E; try discriminate. injection E as <-. cbn [fst].
    apply rec_call_keeps in E1. destruct E1 as (A1 & A2 & A3 & A4). unfold consistent. rewrite A1, A2, A3, A4.
    split; [auto|]. discriminate.
  - destruct (end_major g) as [g1| |] eqn:E1; cbn [bindO] in E; try discriminate. injection E as <-. cbn [fst].
    split; [|discriminate]. unfold end_major in E1.
    destruct (g_state g) eqn:S0; try (injection E1 as <-; unfold consistent; rewrite S0; auto).
    destruct (head g) as [f| |]; cbn [bindO] in E1; try discriminate.
    destruct (success (f_result f)); [injection E1 as <-; unfold consistent; rewrite S0; auto|].
    unfold initiate_dump in E1. match type of E1 with bindO ?h _ = _ => destruct h; cbn [bindO] in E1; try discriminate end.
    injection E1 as <-. unfold consistent. cbn. intuition congruence.
  - unfold update_async in E. split; [|discriminate]. destruct (g_file g).
    + destruct (render g); cbn [bindO] in E; try discriminate. injection E as <-. unfold consistent. cbn. auto.
    + cbn [bindO] in E. injection E as <-. unfold consistent. cbn. auto.
  - contradiction.
  - injection E as <-. unfold consistent. cbn. split; [|discriminate]. split; auto. destruct c; try discriminate. contradiction.
  - injection E as <-. unfold consistent. cbn. split; [|discriminate]. auto.
Qed.

Lemma consistent_init (zero : A) c steps n ports g : c <> BadCmd -> log_init zero c steps n ports = Some g -> consistent g.
Proof.
  intros B E. unfold log_init in E. destruct ((n =? 0)%nat || _); [discriminate|].
  assert (K : consistent (update_freeze (mkLog c steps Paused false [frame0 zero n ports] 0 (u32 (0 - 1)) 0 None))).
  { unfold update_freeze. cbn [g_buf]. destruct (negb _ && _); unfold consistent; cbn; auto. }
  destruct c; try discriminate; destruct ((steps =? 0) && _); try discriminate; injection E as <-; exact K.
Qed.

Theorem C87_records_in_recording_states : forall zero c steps n ports g0 es g1 out1 g2,
  c <> BadCmd -> log_init zero c steps n ports = Some g0 ->
  Forall steady es -> events es g0 = Ret (g1, out1) -> begin_major g1 = Ret g2 ->
  (g_rec g2 = true <-> g_state g2 = RecAuto \/ g_state g2 = RecSnap).
Proof.
  intros zero c steps n ports g0 es g1 out1 g2 B I S E M.
  assert (K : forall es g g1 out, consistent g -> Forall steady es -> events es g = Ret (g1, out) -> consistent g1).
  { clear. induction es as [|e es IH]; intros g g1 out C S E; cbn [events] in E.
    - injection E as <- _. exact C.
    - inversion S; subst. destruct (event e g) as [r| |] eqn:E1; cbn [bindO] in E; try discriminate.
      destruct (events es (fst r)) as [[h q]| |] eqn:E2; cbn [bindO] in E; try discriminate. injection E as <- _. cbn [fst].
      eapply IH; [|eassumption|exact E2]. now apply (consistent_event e g r). }
  pose proof (K es g0 g1 out1 (consistent_init zero c steps n ports g0 B I) S E) as C1.
  destruct (consistent_event EMajor g1 (g2, [])) as (_ & X); [exact Logic.I|exact C1| cbn [event]; rewrite M; reflexivity|].
  apply X. reflexivity.
Qed.
End C50.

(** The files are written while the log is neither empty nor recording; both can be
    seen to fail when the number of steps is changed while a file is pending. *)
Definition net_step (major : Z) (r : StepResult) (v : Z) : list (Rec Z) :=
  [RBegin major 1; RContrib [([v], [v])]; RPot [v]; RStep 1 r].

Theorem C87_resize_refuted : exists g0 es g out,
  log_init 0 CAuto 2 1 [1%nat] = Some g0 /\ Forall (event_ok 1 [1%nat]) es /\
  events es g0 = Ret (g, out) /\
  (* a step failed and its dump was pending when the size was changed *)
  es = EMajor :: map ERec (net_step 1 Confirm 7) ++ [EEnd; ESteps 3; EFreeze; EAsync] /\
  (* the file holds no rows at all *)
  out = [(1, Failure)] /\
  (* and the log records although it is paused *)
  g_rec g = true /\ g_state g = Paused.
Proof.
  eexists. exists (EMajor :: map ERec (net_step 1 Confirm 7) ++ [EEnd; ESteps 3; EFreeze; EAsync]).
  do 2 eexists. split; [reflexivity|].
  split; [repeat (apply Forall_cons; [cbn [event_ok dims]; first [exact Logic.I | lia | now repeat constructor]|]); apply Forall_nil|].
  split; [vm_compute; reflexivity|]. repeat split.
Qed.

(** C88: RECORD_AUTO is for recording steps that fail, but the last result the solver
    records in a step of a linear network is CONFIRM (Gunns.cpp:838-841, 912, 938-939), so a
    linear network's log is dumped after its first, successful, step. *)
Definition linear_step (major : Z) (contrib : list (list Z * list Z)) (pot : list Z) (d : Z) : list (Rec Z) :=
  [RBegin major 1; RContrib contrib; RPot pot; RStep d Confirm].
Theorem C88_linear_refuted : forall n ports g major contrib pot d, reachable n ports g -> 0 < g_size g ->
  g_state g = Paused -> g_cmd g = CAuto ->
  Forall2 link_dims ports contrib -> List.length pot = n ->
  exists g1, StepLog.begin_major g = Ret g1 /\
    exists g2, rec_run (linear_step major contrib pot d) g1 = Ret g2 /\
    exists g3, end_major g2 = Ret g3 /\ g_state g3 = Writing /\ g_rec g3 = false /\
      exists g4 r, update_async g3 = Ret (g4, Some (major, Rows r)) /\ List.length r = 1%nat.
Proof.
  intros n ports g mj contrib pot d I P St C D1 D2.
  destruct (C50_auto n ports g [] (linear_step mj contrib pot d) I P St C) as (g1 & name & r & g2 & E & W & U & S2 & C2 & M & Nm).
  - repeat constructor; cbn [dims]; auto.
  - exact Logic.I.
  - unfold settled, linear_step. cbn. do 4 eexists. split; [reflexivity|]. split; [reflexivity|discriminate].
  - cbn [app majors] in E. unfold major in E.
    destruct (begin_major g) as [ga| |]; cbn [bindO] in E; try discriminate. exists ga. split; auto.
    destruct (rec_run (linear_step mj contrib pot d) ga) as [gb| |] eqn:E2; cbn [bindO] in E; try discriminate.
    exists gb. split; auto. destruct (end_major gb) as [gc| |]; cbn [bindO] in E; try discriminate. injection E as ->.
    exists g1. split; auto. split; auto.
    assert (R1 : g_rec g1 = false).
    { unfold update_async in U. destruct (g_file g1); [|discriminate U]. destruct (render g1) as [o| |] eqn:Er; cbn [bindO] in U; try discriminate U.
      injection U as _ _ ->. unfold render in Er. destruct (g_rec g1); [discriminate|reflexivity]. }
    split; auto. exists g2, r. cbn in Nm. injection Nm as <-. split; auto.
    assert (L : List.length r = List.length (latest (g_size g) (recorded (linear_step mj contrib pot d) []))).
    { cbn [app concat] in M. rewrite app_nil_r in M. clear - M. induction M; cbn; auto. }
    rewrite L. unfold latest. rewrite rev_length, firstn_length. cbn [recorded linear_step fold_left spec_call List.length]. lia.
Qed.

(** A step that fails before its potentials are recorded shows the potentials of an
    earlier step: the frame still holds them. *)
Theorem C88_stale_refuted : exists g0 es g row,
  log_init 0 CSnapMode 1 1 [1%nat] = Some g0 /\
  es = EMajor :: map ERec (net_step 1 Success 7) ++
       EEnd :: EMajor :: map ERec [RBegin 2 1; RStep 1 MathFail] ++ [EEnd; ECmd CSnap; EMajor; EAsync] /\
  events es g0 = Ret (g, [(2, Rows [row])]) /\
  f_major row = 2 /\ f_pot row = [7].
Proof.
  eexists. exists (EMajor :: map ERec (net_step 1 Success 7) ++
       EEnd :: EMajor :: map ERec [RBegin 2 1; RStep 1 MathFail] ++ [EEnd; ECmd CSnap; EMajor; EAsync]).
  do 2 eexists. split; [reflexivity|]. split; [reflexivity|]. split; [vm_compute; reflexivity|]. split; reflexivity.
Qed.

(** recordAllLinksResult is public, and reads the buffer of a log of no steps outside
    its bounds. *)
Theorem C86_all_links_refuted : exists g0,
  log_init 0 CPause 0 1 [1%nat] = Some g0 /\ all_links LConfirm g0 = UB.
Proof. eexists. split; reflexivity. Qed.

(** Non-vacuity: a log of 2 steps over three steps, one of which fails. *)
Example C50_nonvacuous :
  exists g0 r, log_init 0 CAuto 2 1 [1%nat] = Some g0 /\ reachable 1 [1%nat] g0 /\
    0 < g_size g0 /\ g_state g0 = Paused /\ g_cmd g0 = CAuto /\
    quiet [] [net_step 1 Success 5; net_step 2 Success 6] /\
    exists g1 g2, majors ([net_step 1 Success 5; net_step 2 Success 6] ++ [net_step 3 Delay 7]) g0 = Ret g1 /\
    update_async g1 = Ret (g2, Some (3, Rows r)) /\
    map (fun f => (f_major f, f_pot f)) r = [(2, [6]); (3, [7])].
Proof.
  do 2 eexists. split; [reflexivity|]. split.
  { exists 0, CAuto, 2. do 2 eexists. exists []. split; [lia|]. split; [reflexivity|]. split; [apply (Forall_nil (event_ok 1 [1%nat]))|reflexivity]. }
  split; [reflexivity|]. split; [reflexivity|]. split; [reflexivity|]. split.
  { cbn [quiet]. repeat split; unfold settled; cbn; do 4 eexists; repeat split. }
  do 2 eexists. split; [vm_compute; reflexivity|]. split; [vm_compute; reflexivity|]. reflexivity.
Qed.
(** Wrapping around many times keeps only the latest steps. *)
Example C50_wraps :
  map (fun s => s_major s) (latest 2 (recorded (concat (map (fun k => net_step k Success k) [1; 2; 3; 4; 5])) [])) = [4; 5].
Proof. reflexivity. Qed.
Example C87_nonvacuous :
  exists g0 g1 out, log_init 0 CPause 2 1 [1%nat] = Some g0 /\
   events [EMajor; ECmd CSnapMode; EMajor] g0 = Ret (g1, out) /\ g_rec g1 = true /\ g_state g1 = RecSnap.
Proof. do 3 eexists. split; [reflexivity|]. split; [vm_compute; reflexivity|]. split; reflexivity. Qed.

Print Assumptions C50_ring.
Print Assumptions C50_auto.
Print Assumptions C50_snap.
Print Assumptions C86_safe.
Print Assumptions C86_all_links_refuted.
Print Assumptions C87_records_in_recording_states.
Print Assumptions C87_resize_refuted.
Print Assumptions C88_linear_refuted.
Print Assumptions C88_stale_refuted.
