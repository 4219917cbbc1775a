(** * Invariant of the shared message queue with one reader *)
From Coq Require Import List ZArith Bool Lia Arith.
From Verif Require Import MsgQueue MsgQueueConc Spec_QueueConc Spec_Queue MsgQueueFacts.
Import ListNotations.

(** The first [k] fields of the two messages agree. *)
Definition same (k : nat) (a b : Msg) : Prop := forall j, j < k -> copy_field j a b = b.

Lemma same_copy : forall k a b, k <= 7 -> same k a b -> same (S k) a (copy_field k a b).
Proof.
  intros k a b Hk H j Hj.
  destruct (Nat.eq_dec j k) as [->|D].
  - do 8 (destruct k as [|k]; [reflexivity|]). lia.
  - assert (Hjk : j < k) by lia. specialize (H j Hjk).
    destruct a, b.
    do 8 (destruct k as [|k]; [
      do 8 (destruct j as [|j]; [cbn in *; first [lia | congruence]|]); lia |]). lia.
Qed.

Lemma same_all : forall a b, same 8 a b -> a = b.
Proof.
  intros a b H.
  pose proof (H 0 ltac:(lia)) as H0. pose proof (H 1 ltac:(lia)) as H1.
  pose proof (H 2 ltac:(lia)) as H2. pose proof (H 3 ltac:(lia)) as H3.
  pose proof (H 4 ltac:(lia)) as H4. pose proof (H 5 ltac:(lia)) as H5.
  pose proof (H 6 ltac:(lia)) as H6. pose proof (H 7 ltac:(lia)) as H7.
  apply (f_equal m_file) in H0. apply (f_equal m_line) in H1. apply (f_equal m_func) in H2.
  apply (f_equal m_type) in H3. apply (f_equal m_subsys) in H4. apply (f_equal m_text) in H5.
  apply (f_equal m_met) in H6. apply (f_equal m_time) in H7.
  cbn [copy_field m_file m_line m_func m_type m_subsys m_text m_met m_time] in *. clear H.
  destruct a, b. cbn in *. now subst.
Qed.

Lemma same_0 : forall a b, same 0 a b.
Proof. intros a b j H. lia. Qed.

(** The thread holds the mutex. *)
Definition in_cs (p : pc) : bool :=
  match p with
  | WFill _ _ | WTest _ | WHead _ | WCount _ | WTail _ | WUnlock _
  | RCopy _ _ | RAdvance _ | RUnlock _ => true
  | _ => false
  end.

(** The thread is in removeMsg. *)
Definition reading (p : pc) : bool :=
  match p with
  | RAsk | RGotHead _ | RGotTail _ | RLock | RCopy _ _ | RAdvance _ | RUnlock _ => true
  | _ => false
  end.

(** A writer is about to move the tail. *)
Definition adding (ow : option nat) (pcs : nat -> pc) : bool :=
  match ow with
  | None => false
  | Some t => match pcs t with WCount _ | WTail _ => true | _ => false end
  end.

Definition counting (ow : option nat) (pcs : nat -> pc) : Z :=
  match ow with
  | None => 0
  | Some t => match pcs t with WCount _ => 1 | _ => 0 end
  end.

Definition cond (mem : list Node) (tl hd : option nat) (items : list Msg) (ad : bool) (p : pc) : Prop :=
  match p with
  | WFill m k => k <= 7 /\ exists n, deref mem tl = Ret n /\ same k m (n_msg n)
  | WTest m => exists n, deref mem tl = Ret n /\ n_msg n = m
  | WHead m => (exists n, deref mem tl = Ret n /\ n_msg n = m) /\ S (length items) = length mem
  | WCount m | WTail m => (exists n, deref mem tl = Ret n /\ n_msg n = m) /\ S (length items) < length mem
  | RGotHead h => ad = false -> items = [] -> hd = h
  | RGotTail t => ad = false -> items = [] -> tl = t
  | RLock => ad = false -> items <> []
  | RCopy k d => k <= 7 /\ exists m rest, items = m :: rest /\ same k m d
  | RAdvance d => exists rest, items = d :: rest
  | _ => True
  end.

Record Inv (r : nat) (s : State) (items : list Msg) : Prop := {
  i_ring  : ring (c_mem s);
  i_len   : length items < length (c_mem s);
  i_where : exists h, c_head s = Some h /\ h < length (c_mem s) /\
              c_tail s = Some ((h + length items) mod length (c_mem s)) /\
              holds (c_mem s) h items;
  i_log   : exists front, put_in (c_log s) = front ++ items /\
              merge_of front (handed_out (c_log s)) (dropped (c_log s));
  i_over  : (c_over s + counting (c_owner s) (c_pc s) = Z.of_nat (length (dropped (c_log s))))%Z;
  i_owner : forall t, in_cs (c_pc s t) = true <-> c_owner s = Some t;
  i_cond  : forall t, cond (c_mem s) (c_tail s) (c_head s) items (adding (c_owner s) (c_pc s)) (c_pc s t);
  i_reader : forall t, reading (c_pc s t) = true -> t = r }.

Lemma set_pc_same : forall f t p, set_pc f t p t = p.
Proof. intros. unfold set_pc. now rewrite Nat.eqb_refl. Qed.

Lemma set_pc_other : forall f t p u, u <> t -> set_pc f t p u = f u.
Proof. intros. unfold set_pc. apply Nat.eqb_neq in H. now rewrite H. Qed.

(** Conditions of threads outside the critical section. *)
Lemma cond_others : forall mem tl hd items ad mem' tl' hd' items' ad' p,
  in_cs p = false ->
  (ad' = false -> items' = [] -> ad = false /\ items = [] /\ hd' = hd /\ tl' = tl) ->
  cond mem tl hd items ad p -> cond mem' tl' hd' items' ad' p.
Proof.
  intros mem tl hd items ad mem' tl' hd' items' ad' p C Q H.
  destruct p; cbn [cond in_cs] in *; try exact I; try discriminate C.
  - intros A B. destruct (Q A B) as (X & Y & -> & _). auto.
  - intros A B. destruct (Q A B) as (X & Y & _ & ->). auto.
  - intros A B. destruct (Q A B) as (X & Y & _ & _). now apply H.
Qed.

Lemma cond_not_reading : forall mem tl hd items ad mem' tl' hd' items' ad' p,
  in_cs p = false -> reading p = false ->
  cond mem tl hd items ad p -> cond mem' tl' hd' items' ad' p.
Proof.
  intros. destruct p; cbn [cond in_cs reading] in *; try exact I; discriminate.
Qed.

(** The log after one more event. *)
Lemma put_in_app : forall l e, put_in (l ++ [e]) = put_in l ++ put_in [e].
Proof. induction l as [|x l IH]; intros; [reflexivity|]. destruct x; cbn [app put_in]; rewrite ?IH; reflexivity. Qed.
Lemma handed_app : forall l e, handed_out (l ++ [e]) = handed_out l ++ handed_out [e].
Proof. induction l as [|x l IH]; intros; [reflexivity|]. destruct x; cbn [app handed_out]; rewrite ?IH; reflexivity. Qed.
Lemma dropped_app : forall l e, dropped (l ++ [e]) = dropped l ++ dropped [e].
Proof. induction l as [|x l IH]; intros; [reflexivity|]. destruct x; cbn [app dropped]; rewrite ?IH; reflexivity. Qed.
Lemma skipped_app : forall l e, skipped (l ++ [e]) = skipped l + skipped [e].
Proof. induction l as [|x l IH]; intros; [reflexivity|]. destruct x; cbn [app skipped]; rewrite ?IH; reflexivity. Qed.

Lemma merge_left : forall {A} (l a b : list A) x, merge_of l a b -> merge_of (l ++ [x]) (a ++ [x]) b.
Proof. intros A l a b x H. induction H; cbn [app]; repeat constructor; assumption. Qed.
Lemma merge_right : forall {A} (l a b : list A) x, merge_of l a b -> merge_of (l ++ [x]) a (b ++ [x]).
Proof. intros A l a b x H. induction H; cbn [app]; repeat constructor; assumption. Qed.

Lemma merge_sublist : forall {A} (l a b rest : list A), merge_of l a b -> sublist a (l ++ rest).
Proof.
  intros A l a b rest H. induction H; cbn [app]; constructor; assumption.
Qed.

Lemma merge_length : forall {A} (l a b : list A), merge_of l a b -> length l = length a + length b.
Proof. intros A l a b H. induction H; cbn [length]; lia. Qed.

Lemma deref_ring : forall mem i, ring mem -> i < length mem ->
  exists n, deref mem (Some i) = Ret n /\ n_next n = Some (S i mod length mem).
Proof.
  intros mem i R H. destruct (ring_get mem i R H) as (n & E & X). exists n. cbn [deref].
  now rewrite E.
Qed.

Lemma adding_other : forall ow pcs t p, ow <> Some t -> adding ow (set_pc pcs t p) = adding ow pcs.
Proof.
  intros [u|] pcs t p H; [|reflexivity]. cbn [adding]. rewrite set_pc_other by congruence. reflexivity.
Qed.

Lemma counting_other : forall ow pcs t p, ow <> Some t -> counting ow (set_pc pcs t p) = counting ow pcs.
Proof.
  intros [u|] pcs t p H; [|reflexivity]. cbn [counting]. rewrite set_pc_other by congruence. reflexivity.
Qed.

(** A step outside the critical section that touches none of the queue. *)
Lemma inv_local : forall r s items t p fails log',
  Inv r s items -> in_cs (c_pc s t) = false -> in_cs p = false ->
  (reading p = true -> t = r) ->
  cond (c_mem s) (c_tail s) (c_head s) items (adding (c_owner s) (c_pc s)) p ->
  put_in log' = put_in (c_log s) -> handed_out log' = handed_out (c_log s) ->
  dropped log' = dropped (c_log s) ->
  Inv r (mkState (c_mem s) (c_tail s) (c_head s) (c_owner s) fails (c_over s)
                 (set_pc (c_pc s) t p) log') items.
Proof.
  intros r s items t p fails log' V C C' R K L1 L2 L3.
  destruct V as [V1 V2 V3 V4 V5 V6 V7 V8].
  assert (O : c_owner s <> Some t) by (intro X; apply V6 in X; congruence).
  constructor; cbn [c_mem c_tail c_head c_owner c_fails c_over c_pc c_log];
    rewrite ?L1, ?L2, ?L3, ?adding_other, ?counting_other by assumption; auto.
  - intro u. destruct (Nat.eq_dec u t) as [->|D].
    + rewrite set_pc_same. split; intro X; congruence.
    + rewrite set_pc_other by assumption. apply V6.
  - intro u. destruct (Nat.eq_dec u t) as [->|D].
    + now rewrite set_pc_same.
    + rewrite set_pc_other by assumption. apply V7.
  - intro u. destruct (Nat.eq_dec u t) as [->|D].
    + now rewrite set_pc_same.
    + rewrite set_pc_other by assumption. apply V8.
Qed.

(** Taking the mutex. *)
Lemma inv_lock : forall r s items t p,
  Inv r s items -> c_owner s = None -> in_cs p = true ->
  adding (Some t) (fun _ => p) = false -> counting (Some t) (fun _ => p) = 0%Z ->
  (reading p = true -> t = r) ->
  cond (c_mem s) (c_tail s) (c_head s) items false p ->
  Inv r (goto (with_owner s (Some t)) t p) items.
Proof.
  intros r s items t p V O C' A N R K.
  destruct V as [V1 V2 V3 V4 V5 V6 V7 V8].
  cbn [adding counting] in A, N. rewrite O in *. cbn [adding counting] in *.
  constructor; cbn [goto with_owner c_mem c_tail c_head c_owner c_fails c_over c_pc c_log adding counting];
    rewrite ?set_pc_same, ?A, ?N; auto.
  - intro u. destruct (Nat.eq_dec u t) as [->|D].
    + rewrite set_pc_same. split; intro X; congruence.
    + rewrite set_pc_other by assumption. rewrite V6. split; intro X; congruence.
  - intro u. destruct (Nat.eq_dec u t) as [->|D].
    + now rewrite set_pc_same.
    + rewrite set_pc_other by assumption. apply V7.
  - intro u. destruct (Nat.eq_dec u t) as [->|D].
    + now rewrite set_pc_same.
    + rewrite set_pc_other by assumption. apply V8.
Qed.

(** A step inside the critical section. *)
Lemma inv_inside : forall r s items t p mem tl hd over log' items',
  Inv r s items -> c_owner s = Some t -> in_cs p = true ->
  reading p = reading (c_pc s t) ->
  ring mem -> length items' < length mem ->
  (exists h, hd = Some h /\ h < length mem /\
     tl = Some ((h + length items') mod length mem) /\ holds mem h items') ->
  (exists front, put_in log' = front ++ items' /\ merge_of front (handed_out log') (dropped log')) ->
  (over + counting (Some t) (fun _ => p) = Z.of_nat (length (dropped log')))%Z ->
  cond mem tl hd items' (adding (Some t) (fun _ => p)) p ->
  (reading p = true \/
   (adding (Some t) (fun _ => p) = false -> items' = [] ->
    adding (Some t) (c_pc s) = false /\ items = [] /\ hd = c_head s /\ tl = c_tail s)) ->
  Inv r (mkState mem tl hd (c_owner s) (c_fails s) over (set_pc (c_pc s) t p) log') items'.
Proof.
  intros r s items t p mem tl hd over log' items' V O C' RD H1 H2 H3 H4 H5 K Q.
  destruct V as [V1 V2 V3 V4 V5 V6 V7 V8].
  assert (NC : forall u, u <> t -> in_cs (c_pc s u) = false).
  { intros u D. destruct (in_cs (c_pc s u)) eqn:E; [|reflexivity]. apply V6 in E. congruence. }
  assert (EA : adding (Some t) (set_pc (c_pc s) t p) = adding (Some t) (fun _ => p))
    by (cbn [adding]; now rewrite set_pc_same).
  assert (EC : counting (Some t) (set_pc (c_pc s) t p) = counting (Some t) (fun _ => p))
    by (cbn [counting]; now rewrite set_pc_same).
  rewrite O in *.
  constructor; cbn [c_mem c_tail c_head c_owner c_fails c_over c_pc c_log];
    rewrite ?EA, ?EC; auto.
  - intro u. destruct (Nat.eq_dec u t) as [->|D].
    + rewrite set_pc_same. split; intro X; congruence.
    + rewrite set_pc_other by assumption. rewrite (NC u D). split; intro X; congruence.
  - intro u. destruct (Nat.eq_dec u t) as [->|D].
    + now rewrite set_pc_same.
    + rewrite set_pc_other by assumption. destruct Q as [Q|Q].
      * eapply cond_not_reading; [now apply NC | | apply V7].
        destruct (reading (c_pc s u)) eqn:E; [|reflexivity].
        apply V8 in E. rewrite RD in Q. apply V8 in Q. congruence.
      * eapply cond_others; [now apply NC | exact Q | apply V7].
  - intro u. destruct (Nat.eq_dec u t) as [->|D].
    + rewrite set_pc_same, RD. apply V8.
    + rewrite set_pc_other by assumption. apply V8.
Qed.

(** Releasing the mutex. *)
Lemma inv_unlock : forall r s items t,
  Inv r s items -> c_owner s = Some t -> adding (Some t) (c_pc s) = false ->
  counting (Some t) (c_pc s) = 0%Z ->
  Inv r (goto (with_owner s None) t Idle) items.
Proof.
  intros r s items t V O A N.
  destruct V as [V1 V2 V3 V4 V5 V6 V7 V8]. rewrite O in *. rewrite A in V7. rewrite N in V5.
  constructor; cbn [goto with_owner c_mem c_tail c_head c_owner c_fails c_over c_pc c_log adding counting]; auto.
  - intro u. destruct (Nat.eq_dec u t) as [->|D].
    + rewrite set_pc_same. cbn [in_cs]. split; intro X; discriminate X.
    + rewrite set_pc_other by assumption. rewrite V6. split; intro X; congruence.
  - intro u. destruct (Nat.eq_dec u t) as [->|D].
    + rewrite set_pc_same. exact I.
    + rewrite set_pc_other by assumption. apply V7.
  - intro u. destruct (Nat.eq_dec u t) as [->|D].
    + rewrite set_pc_same. discriminate.
    + rewrite set_pc_other by assumption. apply V8.
Qed.

(** What is at the two ends. *)
Lemma inv_tail : forall r s items, Inv r s items ->
  exists h n, c_head s = Some h /\ h < length (c_mem s) /\
    c_tail s = Some ((h + length items) mod length (c_mem s)) /\
    deref (c_mem s) (c_tail s) = Ret n /\
    n_next n = Some ((h + S (length items)) mod length (c_mem s)).
Proof.
  intros r s items V. destruct (i_where _ _ _ V) as (h & Eh & Hh & Et & _).
  destruct (i_ring _ _ _ V) as [N2 _].
  destruct (deref_ring (c_mem s) ((h + length items) mod length (c_mem s)) (i_ring _ _ _ V)) as (n & D & X).
  { apply Nat.mod_upper_bound. lia. }
  exists h, n. rewrite Et. repeat split; auto.
  rewrite X. f_equal. rewrite succ_mod by lia. f_equal. lia.
Qed.

Lemma inv_head : forall r s m items, Inv r s (m :: items) ->
  exists h n, c_head s = Some h /\ h < length (c_mem s) /\
    deref (c_mem s) (c_head s) = Ret n /\ n_msg n = m /\
    n_next n = Some (S h mod length (c_mem s)) /\
    c_tail s = Some ((S h mod length (c_mem s) + length items) mod length (c_mem s)) /\
    holds (c_mem s) (S h mod length (c_mem s)) items.
Proof.
  intros r s m items V. destruct (i_where _ _ _ V) as (h & Eh & Hh & Et & H).
  destruct (i_ring _ _ _ V) as [N2 RN].
  destruct (holds_head _ _ _ _ Hh H) as (n & En & Mn).
  exists h, n. rewrite Eh. cbn [deref]. rewrite En. repeat split; auto.
  - rewrite Et. f_equal. rewrite Nat.add_mod_idemp_l by lia. cbn [length]. f_equal. lia.
  - eapply holds_tail; [lia | exact H].
Qed.

Lemma full_iff : forall h len N, h < N -> len < N ->
  ((h + S len) mod N = h <-> S len = N).
Proof.
  intros h len N Hh Hl. split; intro E.
  - destruct (Nat.eq_dec (S len) N); [assumption|]. rewrite mod_small_add in E by lia.
    destruct (Nat.ltb_spec (h + S len) N); lia.
  - rewrite E. replace (h + N) with (h + 1 * N) by lia. rewrite Nat.mod_add by lia.
    now apply Nat.mod_small.
Qed.

(** The invariant is kept by every step, and no step is undefined. *)
Lemma step_inv : forall r l s items, Inv r s items -> only_reader r l ->
  match step l s with
  | Ret s' => exists items', Inv r s' items'
  | UB => False
  | Hang => True
  end.
Proof.
  intros r l s items V OR.
  destruct l as [t m|t|t|t|t|t]; cbn [step only_reader] in *.
  - (* LInsert *)
    destruct (c_pc s t) eqn:P; try exact I. exists items.
    unfold emit, goto; cbn [c_mem c_tail c_head c_owner c_fails c_over c_pc c_log]; apply inv_local; auto; rewrite ?P; auto; try exact I; try discriminate.
  - (* LRemove *)
    destruct (c_pc s t) eqn:P; try exact I. exists items.
    unfold emit, goto; cbn [c_mem c_tail c_head c_owner c_fails c_over c_pc c_log]; apply inv_local; auto; rewrite ?P; auto; exact I.
  - (* LStep *)
    pose proof (i_cond _ _ _ V t) as K.
    pose proof (i_owner _ _ _ V t) as W.
    pose proof (i_reader _ _ _ V t) as RD.
    destruct (i_ring _ _ _ V) as [N2 RN].
    destruct (c_pc s t) eqn:P; cbn [cond] in K; cbn [in_cs] in W; try exact I.
    + exists items. unfold emit, goto; cbn [c_mem c_tail c_head c_owner c_fails c_over c_pc c_log]; apply inv_local; auto; rewrite ?P; auto; try exact I; try discriminate.
    + exists items. unfold emit, goto; cbn [c_mem c_tail c_head c_owner c_fails c_over c_pc c_log]; apply inv_local; auto; rewrite ?P; auto; try exact I; try discriminate;
        rewrite ?put_in_app, ?handed_app, ?dropped_app; apply app_nil_r.
    + (* WFill *)
      destruct W as [W _]; specialize (W eq_refl).
      destruct K as (Hk & n & D & Sm).
      destruct (inv_tail _ _ _ V) as (h & n' & Eh & Hh & Et & D' & Nx).
      rewrite D in *. injection D' as <-. cbn [bindO].
      rewrite Et. cbn [store]. set (tl := (h + length items) mod length (c_mem s)) in *.
      assert (Ent : nth_error (c_mem s) tl = Some n).
      { rewrite Et in D. cbn [deref] in D. destruct (nth_error (c_mem s) tl); congruence. }
      assert (Htl : tl < length (c_mem s)) by (apply Nat.mod_upper_bound; lia).
      exists items. unfold emit, goto; cbn [c_mem c_tail c_head c_owner c_fails c_over c_pc c_log]; apply inv_inside with (items := items); auto.
      * now destruct (k <? 7).
      * rewrite P. now destruct (k <? 7).
      * apply ring_store; [split|]; assumption.
      * rewrite set_nth_length. apply (i_len _ _ _ V).
      * exists h. rewrite set_nth_length. repeat split; auto.
        destruct (i_where _ _ _ V) as (h2 & Eh2 & _ & _ & H2).
        assert (h2 = h) by congruence. subst h2.
        intros j mj Ej.
        assert (Hj : j < length items) by (apply nth_error_Some; congruence).
        rewrite set_nth_length, set_nth_other; [now apply H2|].
        intro X. unfold tl in X. pose proof (i_len _ _ _ V).
        apply mod_inj in X; lia.
      * apply (i_log _ _ _ V).
      * pose proof (i_over _ _ _ V) as OV. rewrite W in OV. cbn [counting] in *. rewrite P in OV.
        destruct (k <? 7); cbn [counting]; exact OV.
      * destruct (Nat.ltb_spec k 7) as [Lt|Ge]; cbn [cond deref]; rewrite set_nth_same by assumption.
        -- split; [lia|]. eexists; split; [reflexivity|]. cbn [n_msg]. now apply same_copy.
        -- eexists; split; [reflexivity|]. cbn [n_msg].
           assert (k = 7) by lia. subst k. symmetry. apply same_all. now apply same_copy.
      * right. intros _ EI. cbn [adding]. rewrite P. auto.
    + (* WTest *)
      destruct W as [W _]; specialize (W eq_refl).
      destruct K as (n & D & Mn).
      destruct (inv_tail _ _ _ V) as (h & n' & Eh & Hh & Et & D' & Nx).
      pose proof (i_len _ _ _ V) as L.
      rewrite D in *. injection D' as <-. cbn [bindO].
      assert (FI := full_iff h (length items) (length (c_mem s)) Hh L).
      exists items.
      destruct (ptr_eqb_spec (n_next n) (c_head s)) as [F|F].
      * unfold emit, goto; cbn [c_mem c_tail c_head c_owner c_fails c_over c_pc c_log]; apply inv_inside with (items := items); auto; try apply V; auto.
        -- now rewrite P.
        -- pose proof (i_over _ _ _ V) as OV. rewrite W in OV. cbn [counting] in *.
           rewrite P in OV. exact OV.
        -- cbn [cond]. split; [eauto|]. apply FI. congruence.
        -- right. intros _ EI. cbn [adding]. rewrite P. auto.
      * unfold emit, goto; cbn [c_mem c_tail c_head c_owner c_fails c_over c_pc c_log]; apply inv_inside with (items := items); auto; try apply V; auto.
        -- now rewrite P.
        -- pose proof (i_over _ _ _ V) as OV. rewrite W in OV. cbn [counting] in *.
           rewrite P in OV. exact OV.
        -- cbn [cond]. split; [eauto|].
           assert (S (length items) <> length (c_mem s)); [|lia].
           intro X. apply F. rewrite Nx, Eh. f_equal. now apply FI.
        -- right. cbn [adding]. discriminate.
    + (* WHead *)
      destruct W as [W _]; specialize (W eq_refl).
      destruct K as ((nt & D & Mn) & Fu).
      destruct items as [|m0 its]; [cbn [length] in Fu; lia|].
      destruct (inv_head _ _ _ _ V) as (h & n & Eh & Hh & Dh & Mh & Nx & Et & H).
      rewrite Dh. cbn [bindO]. exists its.
      unfold emit, goto; cbn [c_mem c_tail c_head c_owner c_fails c_over c_pc c_log]; apply inv_inside with (items := m0 :: its); auto.
      * now rewrite P.
      * apply (i_ring _ _ _ V).
      * cbn [length] in Fu. lia.
      * exists (S h mod length (c_mem s)). repeat split; auto. apply Nat.mod_upper_bound. lia.
      * destruct (i_log _ _ _ V) as (front & E1 & E2).
        exists (front ++ [m0]).
        rewrite put_in_app, handed_app, dropped_app. cbn [put_in handed_out dropped].
        rewrite !app_nil_r, Mh, E1, <- app_assoc. split; [reflexivity|]. now apply merge_right.
      * pose proof (i_over _ _ _ V) as OV. rewrite W in OV. cbn [counting] in *. rewrite P in OV.
        rewrite dropped_app, app_length. cbn [dropped length]. lia.
      * cbn [cond]. split; [eauto|]. cbn [length] in Fu. lia.
      * right. cbn [adding]. discriminate.
    + (* WCount *)
      destruct W as [W _]; specialize (W eq_refl).
      exists items. unfold emit, goto; cbn [c_mem c_tail c_head c_owner c_fails c_over c_pc c_log]; apply inv_inside with (items := items); auto; try apply V; auto.
      * now rewrite P.
      * pose proof (i_over _ _ _ V) as OV. rewrite W in OV. cbn [counting] in *.
        rewrite P in OV. lia.
      * right. cbn [adding]. discriminate.
    + (* WTail *)
      destruct W as [W _]; specialize (W eq_refl).
      destruct K as ((n & D & Mn) & Fu).
      destruct (inv_tail _ _ _ V) as (h & n' & Eh & Hh & Et & D' & Nx).
      rewrite D in *. injection D' as <-. cbn [bindO].
      exists (items ++ [m]). unfold emit, goto; cbn [c_mem c_tail c_head c_owner c_fails c_over c_pc c_log]; apply inv_inside with (items := items); auto.
      * now rewrite P.
      * apply (i_ring _ _ _ V).
      * rewrite app_length. cbn [length]. lia.
      * exists h. rewrite app_length. cbn [length]. rewrite Nat.add_1_r. repeat split; auto.
        destruct (i_where _ _ _ V) as (h2 & Eh2 & _ & _ & H2).
        assert (h2 = h) by congruence. subst h2.
        intros j mj Ej. destruct (lt_dec j (length items)) as [Lj|Lj].
        -- rewrite nth_error_app1 in Ej by assumption. now apply H2.
        -- assert (j = length items).
           { assert (j < length (items ++ [m])) by (apply nth_error_Some; congruence).
             rewrite app_length in H; cbn in H; lia. }
           subst j. rewrite nth_error_app2, Nat.sub_diag in Ej by lia. cbn in Ej.
           injection Ej as <-. exists n. split; [|assumption].
           rewrite Et in D. cbn [deref] in D.
           destruct (nth_error (c_mem s) ((h + length items) mod length (c_mem s))); congruence.
      * destruct (i_log _ _ _ V) as (front & E1 & E2).
        exists front.
        rewrite put_in_app, handed_app, dropped_app. cbn [put_in handed_out dropped].
        rewrite !app_nil_r, E1, <- app_assoc. auto.
      * pose proof (i_over _ _ _ V) as OV. rewrite W in OV. cbn [counting] in *. rewrite P in OV.
        rewrite dropped_app, app_length. cbn [dropped length]. lia.
      * right. intros _ X. now destruct items.
    + (* WUnlock *)
      destruct W as [W _]; specialize (W eq_refl).
      exists items. apply inv_unlock; auto; cbn [adding counting]; now rewrite P.
    + (* RAsk *)
      exists items. unfold emit, goto; cbn [c_mem c_tail c_head c_owner c_fails c_over c_pc c_log]; apply inv_local; auto; rewrite ?P; auto. cbn [cond]. auto.
    + (* RGotHead *)
      destruct (ptr_eqb_spec h (c_tail s)) as [E|E].
      * exists items. unfold emit, goto; cbn [c_mem c_tail c_head c_owner c_fails c_over c_pc c_log]; apply inv_local; auto; rewrite ?P; auto; try exact I; try discriminate;
          rewrite ?put_in_app, ?handed_app, ?dropped_app; apply app_nil_r.
      * exists items. unfold emit, goto; cbn [c_mem c_tail c_head c_owner c_fails c_over c_pc c_log]; apply inv_local; auto; rewrite ?P; auto. cbn [cond]. intros A EI.
        apply E. rewrite <- (K A EI). destruct (inv_tail _ _ _ V) as (h0 & n & Eh & Hh & Et & _).
        subst items. rewrite Et, Eh. cbn [length]. f_equal. rewrite Nat.add_0_r.
        symmetry. now apply Nat.mod_small.
    + (* RGotTail *)
      destruct (ptr_eqb_spec (c_head s) t0) as [E|E].
      * exists items. unfold emit, goto; cbn [c_mem c_tail c_head c_owner c_fails c_over c_pc c_log]; apply inv_local; auto; rewrite ?P; auto; try exact I; try discriminate;
          rewrite ?put_in_app, ?handed_app, ?dropped_app; apply app_nil_r.
      * exists items. unfold emit, goto; cbn [c_mem c_tail c_head c_owner c_fails c_over c_pc c_log]; apply inv_local; auto; rewrite ?P; auto. cbn [cond]. intros A EI.
        apply E. rewrite <- (K A EI). destruct (inv_tail _ _ _ V) as (h0 & n & Eh & Hh & Et & _).
        subst items. rewrite Et, Eh. cbn [length]. f_equal. rewrite Nat.add_0_r.
        symmetry. now apply Nat.mod_small.
    + (* RLock *)
      destruct (c_owner s) eqn:O; [exact I|]. cbn [adding] in K.
      exists items. apply inv_lock; auto.
      cbn [cond]. split; [lia|]. destruct items as [|m0 its]; [now elim K|].
      exists m0, its. split; [reflexivity|]. apply same_0.
    + (* RCopy *)
      destruct W as [W _]; specialize (W eq_refl).
      destruct K as (Hk & m0 & its & -> & Sm).
      destruct (inv_head _ _ _ _ V) as (h & n & Eh & Hh & Dh & Mh & Nx & Et & H).
      rewrite Dh. cbn [bindO]. rewrite Mh. exists (m0 :: its).
      unfold emit, goto; cbn [c_mem c_tail c_head c_owner c_fails c_over c_pc c_log]; apply inv_inside with (items := m0 :: its); auto; try apply V.
      * now destruct (k <? 7).
      * rewrite P. now destruct (k <? 7).
      * pose proof (i_over _ _ _ V) as OV. rewrite W in OV. cbn [counting] in *. rewrite P in OV.
        destruct (k <? 7); cbn [counting]; exact OV.
      * destruct (Nat.ltb_spec k 7) as [Lt|Ge]; cbn [cond].
        -- split; [lia|]. exists m0, its. split; [reflexivity|]. now apply same_copy.
        -- exists its. f_equal. assert (k = 7) by lia. subst k. apply same_all. now apply same_copy.
      * right. intros _ X. discriminate X.
    + (* RAdvance *)
      destruct W as [W _]; specialize (W eq_refl).
      destruct K as (its & ->).
      destruct (inv_head _ _ _ _ V) as (h & n & Eh & Hh & Dh & Mh & Nx & Et & H).
      rewrite Dh. cbn [bindO]. exists its.
      pose proof (i_len _ _ _ V) as L. cbn [length] in L.
      unfold emit, goto; cbn [c_mem c_tail c_head c_owner c_fails c_over c_pc c_log]; apply inv_inside with (items := d :: its); auto.
      * now rewrite P.
      * apply (i_ring _ _ _ V).
      * lia.
      * exists (S h mod length (c_mem s)). repeat split; auto. apply Nat.mod_upper_bound. lia.
      * destruct (i_log _ _ _ V) as (front & E1 & E2).
        exists (front ++ [d]).
        rewrite put_in_app, handed_app, dropped_app. cbn [put_in handed_out dropped].
        rewrite !app_nil_r, E1, <- app_assoc. split; [reflexivity|]. now apply merge_left.
      * pose proof (i_over _ _ _ V) as OV. rewrite W in OV. cbn [counting] in *. rewrite P in OV.
        rewrite dropped_app, app_length. cbn [dropped length]. lia.
    + (* RUnlock *)
      destruct W as [W _]; specialize (W eq_refl).
      exists items. apply inv_unlock; auto; cbn [adding counting]; now rewrite P.
  - (* LBlocking *)
    destruct (c_pc s t) eqn:P; try exact I. destruct (c_owner s) eqn:O; [exact I|].
    exists items. apply inv_lock; auto; [discriminate|].
    destruct (inv_tail _ _ _ V) as (h & n & Eh & Hh & Et & D & Nx).
    cbn [cond]. split; [lia|]. exists n. split; [assumption | apply same_0].
  - (* LTry *)
    destruct (c_pc s t) eqn:P; try exact I. destruct (c_owner s) eqn:O.
    + exists items. replace (goto s t (WFailRead m)) with
        (mkState (c_mem s) (c_tail s) (c_head s) (c_owner s) (c_fails s) (c_over s)
                 (set_pc (c_pc s) t (WFailRead m)) (c_log s)) by reflexivity.
      unfold emit, goto; cbn [c_mem c_tail c_head c_owner c_fails c_over c_pc c_log]; apply inv_local; auto; rewrite ?P; auto; try exact I; try discriminate.
    + exists items. apply inv_lock; auto; [discriminate|].
      destruct (inv_tail _ _ _ V) as (h & n' & Eh & Hh & Et & D & Nx).
      cbn [cond]. split; [lia|]. exists n'. split; [assumption | apply same_0].
  - (* LTailFirst *)
    destruct (c_pc s t) eqn:P; try exact I. exists items.
    unfold emit, goto; cbn [c_mem c_tail c_head c_owner c_fails c_over c_pc c_log]; apply inv_local; auto; rewrite ?P; auto.
    + pose proof (i_reader _ _ _ V t) as RD. rewrite P in RD. auto.
    + cbn [cond]. auto.
Qed.

Lemma run_inv : forall r ls s items, Inv r s items -> Forall (only_reader r) ls ->
  match run ls s with
  | Ret s' => exists items', Inv r s' items'
  | UB => False
  | Hang => True
  end.
Proof.
  induction ls as [|l ls IH]; intros s items V F; cbn [run].
  - eauto.
  - inversion F as [|? ? F1 F2]; subst.
    pose proof (step_inv r l s items V F1) as X.
    destruct (step l s) as [s1| |]; cbn [bindO]; auto.
    destruct X as (items1 & V1). now apply (IH s1 items1).
Qed.

Lemma conc_inv : forall r q a, rep q a -> a_items a = [] -> q_over q = 0%Z ->
  Inv r (conc_of q) [].
Proof.
  intros r q a R E O. destruct (rep_where _ _ R) as (h & Eh & Hh & Et & H). rewrite E in *.
  destruct (rep_ring _ _ R) as [N2 RN].
  constructor; cbn [conc_of c_mem c_tail c_head c_owner c_fails c_over c_pc c_log adding counting in_cs reading]; auto.
  - split; assumption.
  - cbn [length]. lia.
  - eauto.
  - exists []. split; [reflexivity | constructor].
  - rewrite O. reflexivity.
  - intro t. split; discriminate.
  - intro t. exact I.
  - discriminate.
Qed.

(** ** A thread that runs alone does what the sequential model says *)

Lemma run_app : forall a b s, run (a ++ b) s = let! s := run a s in run b s.
Proof.
  induction a as [|l a IH]; intros b s; cbn [run app]; [reflexivity|].
  destruct (step l s); cbn [bindO]; auto.
Qed.

Lemma set_nth_twice : forall {A} (l : list A) i x y, set_nth (set_nth l i x) i y = set_nth l i y.
Proof. induction l; destruct i; intros; cbn [set_nth]; auto. now rewrite IHl. Qed.

(** The state [s] of the threads shows the queue [q]. *)
Definition shows (s : State) (q : Queue) : Prop :=
  c_mem s = q_mem q /\ c_tail s = q_tail q /\ c_head s = q_head q /\
  (c_owner s = None <-> q_lock q = false) /\ c_fails s = q_fails q /\ c_over s = q_over q.

(** Writing the fields one by one. *)
Lemma fill_run : forall j k t m s n, j + k = 8 -> k <= 7 -> c_pc s t = WFill m k ->
  deref (c_mem s) (c_tail s) = Ret n -> same k m (n_msg n) ->
  exists s', run (repeat (LStep t) j) s = Ret s' /\ c_pc s' t = WTest m /\
    c_mem s' = store (c_mem s) (c_tail s) (mkNode m (n_next n)) /\
    c_tail s' = c_tail s /\ c_head s' = c_head s /\ c_owner s' = c_owner s /\
    c_fails s' = c_fails s /\ c_over s' = c_over s /\ c_log s' = c_log s /\
    (forall u, u <> t -> c_pc s' u = c_pc s u).
Proof.
  induction j as [|j IH]; intros k t m s n Hj Hk P D Sm; [lia|].
  cbn [repeat run step]. rewrite P, D. cbn [bindO].
  destruct (c_tail s) as [i|] eqn:Et; [|discriminate D]. cbn [deref] in D.
  destruct (nth_error (c_mem s) i) as [n'|] eqn:En; [|discriminate D]. injection D as ->.
  assert (Hi : i < length (c_mem s)) by (apply nth_error_Some; congruence).
  cbn [store]. unfold goto. cbn [c_mem c_tail c_head c_owner c_fails c_over c_pc c_log].
  destruct (Nat.ltb_spec k 7) as [Lt|Ge].
  - match goal with |- exists s', run _ ?s1 = _ /\ _ =>
      destruct (IH (S k) t m s1 (mkNode (copy_field k m (n_msg n)) (n_next n))) as
        (s' & E & P' & M' & T' & H' & O' & F' & V' & L' & U') end.
    + lia.
    + lia.
    + cbn [c_pc]. apply set_pc_same.
    + cbn [c_mem c_tail deref]. rewrite ?Et. cbn [deref]. now rewrite set_nth_same.
    + cbn [n_msg]. now apply same_copy.
    + cbn [c_mem c_tail c_head c_owner c_fails c_over c_pc c_log n_next] in *.
      exists s'. rewrite ?Et in *. cbn [store] in M'. rewrite set_nth_twice in M'.
      repeat split; auto. intros u Hu. rewrite U' by assumption. now apply set_pc_other.
  - assert (k = 7) by lia. subst k. assert (j = 0) by lia. subst j. cbn [repeat run].
    eexists; split; [reflexivity|].
    cbn [c_mem c_tail c_head c_owner c_fails c_over c_pc c_log].
    assert (EM : copy_field 7 m (n_msg n) = m) by (symmetry; apply same_all; now apply same_copy).
    rewrite EM, set_pc_same, ?Et. repeat split; auto. intros u Hu. now apply set_pc_other.
Qed.

Lemma goto_pc : forall s t p, c_pc (goto s t p) t = p.
Proof. intros. unfold goto. cbn [c_pc]. apply set_pc_same. Qed.

Lemma tail_run : forall t m s n, c_pc s t = WTail m -> deref (c_mem s) (c_tail s) = Ret n ->
  exists s', run (repeat (LStep t) 2) s = Ret s' /\ c_pc s' t = Idle /\
    c_mem s' = c_mem s /\ c_tail s' = n_next n /\ c_head s' = c_head s /\ c_owner s' = None /\
    c_fails s' = c_fails s /\ c_over s' = c_over s /\ c_log s' = c_log s ++ [EInserted t m] /\
    (forall u, u <> t -> c_pc s' u = c_pc s u).
Proof.
  intros t m s n P D.
  assert (A1 : step (LStep t) s = Ret (emit (goto (mkState (c_mem s) (n_next n) (c_head s) (c_owner s) (c_fails s) (c_over s)
                                   (c_pc s) (c_log s)) t (WUnlock m)) (EInserted t m))) by (cbn [step]; now rewrite P, D).
  match type of A1 with _ = Ret ?x => set (s1 := x) in * end.
  assert (P1 : c_pc s1 t = WUnlock m) by apply set_pc_same.
  assert (A2 : step (LStep t) s1 = Ret (goto (with_owner s1 None) t Idle)) by (cbn [step]; now rewrite P1).
  cbn [repeat run]. rewrite A1. cbn [bindO]. rewrite A2. cbn [bindO].
  eexists; split; [reflexivity|]. unfold s1, emit, goto.
  unfold with_owner. cbn [c_mem c_tail c_head c_owner c_fails c_over c_pc c_log].
  rewrite set_pc_same. repeat split; auto. intros u Hu. now rewrite !set_pc_other by assumption.
Qed.

Lemma drop_run : forall t m s n, c_pc s t = WHead m -> deref (c_mem s) (c_head s) = Ret n ->
  exists s', run (repeat (LStep t) 2) s = Ret s' /\ c_pc s' t = WTail m /\
    c_mem s' = c_mem s /\ c_tail s' = c_tail s /\ c_head s' = n_next n /\ c_owner s' = c_owner s /\
    c_fails s' = c_fails s /\ c_over s' = (c_over s + 1)%Z /\ c_log s' = c_log s ++ [EDropped (n_msg n)] /\
    (forall u, u <> t -> c_pc s' u = c_pc s u).
Proof.
  intros t m s n P D.
  assert (A1 : step (LStep t) s = Ret (emit (goto (mkState (c_mem s) (c_tail s) (n_next n) (c_owner s) (c_fails s) (c_over s)
                                   (c_pc s) (c_log s)) t (WCount m)) (EDropped (n_msg n)))) by (cbn [step]; now rewrite P, D).
  match type of A1 with _ = Ret ?x => set (s1 := x) in * end.
  assert (P1 : c_pc s1 t = WCount m) by apply set_pc_same.
  assert (A2 : step (LStep t) s1 = Ret (goto (mkState (c_mem s1) (c_tail s1) (c_head s1) (c_owner s1) (c_fails s1) (c_over s1 + 1)%Z
                             (c_pc s1) (c_log s1)) t (WTail m))) by (cbn [step]; now rewrite P1).
  cbn [repeat run]. rewrite A1. cbn [bindO]. rewrite A2. cbn [bindO].
  eexists; split; [reflexivity|]. unfold s1, emit, goto.
  cbn [c_mem c_tail c_head c_owner c_fails c_over c_pc c_log].
  rewrite set_pc_same. repeat split; auto. intros u Hu. now rewrite !set_pc_other by assumption.
Qed.

Lemma solo_insert : forall t m s q q' a, rep q a -> shows s q -> c_pc s t = Idle ->
  insert_msg q m = Ret q' ->
  exists k s', run (LInsert t m :: LTry t :: repeat (LStep t) k) s = Ret s' /\
    shows s' q' /\ c_pc s' t = Idle /\ (forall u, u <> t -> c_pc s' u = c_pc s u) /\
    put_in (c_log s') = put_in (c_log s) ++ [m].
Proof.
  intros t m s q q' a R (S1 & S2 & S3 & S4 & S5 & S6) P E.
  unfold insert_msg, lock in E. rewrite (rep_lock _ _ R) in *.
  assert (E' : (let! q := insert_locked (set_lock q true) m in Ret (set_lock q false)) = Ret q')
    by (destruct (q_block q); exact E). clear E. rename E' into E.
  pose proof (proj2 S4 eq_refl) as O. clear S4.
  destruct (rep_where _ _ R) as (h & Eh & Hh & Et & _). pose proof (rep_ring _ _ R) as RR.
  set (tl := (h + length (a_items a)) mod length (q_mem q)) in *.
  assert (Htl : tl < length (q_mem q)) by (destruct RR; apply Nat.mod_upper_bound; lia).
  destruct (deref_ring (q_mem q) tl RR Htl) as (n & D & Nx).
  destruct (deref_ring (q_mem q) h RR Hh) as (nh & Dh & Nh).
  cbn [run step]. rewrite P. cbn [bindO]. rewrite goto_pc.
  change (c_owner (goto s t (WAsk m))) with (c_owner s). rewrite O. cbn [bindO].
  match goal with |- exists k s', run _ ?s1 = _ /\ _ => set (s1' := s1) end.
  destruct (fill_run 8 0 t m s1' n) as (s2 & E2 & P2 & M2 & T2 & H2 & O2 & F2 & V2 & L2 & U2);
    [lia | lia | unfold s1', goto; cbn [c_pc]; apply set_pc_same
    | unfold s1', goto, with_owner; cbn [c_mem c_tail]; now rewrite S1, S2, Et | apply same_0 |].
  unfold s1', goto, with_owner in M2, T2, H2, O2, F2, V2, L2, U2.
  cbn [c_mem c_tail c_head c_owner c_fails c_over c_pc c_log] in *.
  assert (U2' : forall u, u <> t -> c_pc s2 u = c_pc s u).
  { intros u Hu. rewrite U2 by assumption. rewrite !set_pc_other by assumption. reflexivity. }
  clear U2. clearbody s1'.
  rewrite S1, S2, Et in M2. cbn [store] in M2. rewrite S2, Et in T2. rewrite S3, Eh in H2.
  set (mem' := set_nth (q_mem q) tl (mkNode m (n_next n))) in *.
  assert (Dt' : deref mem' (Some tl) = Ret (mkNode m (n_next n))).
  { cbn [deref]. unfold mem'. now rewrite set_nth_same. }
  (* what the sequential code computes *)
  unfold insert_locked, set_lock, is_full in E.
  cbn [q_mem q_tail q_head q_asize q_lock q_block q_fails q_over] in E.
  rewrite Et, Eh, D in E. cbn [bindO] in E. rewrite write_fields_eq in E. cbn [store] in E.
  fold mem' in E. rewrite Dt' in E. cbn [bindO n_next] in E.
  assert (ST : step (LStep t) s2 =
    Ret (goto s2 t (if ptr_eqb (n_next n) (Some h) then WHead m else WTail m))).
  { cbn [step]. rewrite P2, M2, T2, Dt'. cbn [bindO n_next]. now rewrite H2. }
  destruct (ptr_eqb (n_next n) (Some h)).
  - (* overflow *)
    destruct (deref mem' (Some h)) as [nd| |] eqn:Dh'; cbn [bindO] in E; try discriminate E.
    unfold int_inc in E. destruct (int_max <=? q_over q)%Z; cbn [bindO] in E; [discriminate E|].
    cbn [q_mem q_tail q_head q_asize q_lock q_block q_fails q_over] in E.
    rewrite Dt' in E. cbn [bindO n_next] in E. injection E as <-.
    destruct (drop_run t m (goto s2 t (WHead m)) nd) as
      (s3 & E3 & P3 & M3 & T3 & H3 & O3 & F3 & V3 & L3 & U3).
    { apply goto_pc. }
    { unfold goto. cbn [c_mem c_head]. now rewrite M2, H2. }
    unfold goto in M3, T3, H3, O3, F3, V3, L3, U3.
    cbn [c_mem c_tail c_head c_owner c_fails c_over c_pc c_log] in M3, T3, H3, O3, F3, V3, L3, U3.
    destruct (tail_run t m s3 (mkNode m (n_next n)) P3) as
      (s4 & E4 & P4 & M4 & T4 & H4 & O4 & F4 & V4 & L4 & U4).
    { now rewrite M3, M2, T3, T2. }
    exists (8 + (1 + (2 + 2))), s4. split.
    { rewrite repeat_app, run_app, E2. cbn [bindO]. rewrite repeat_app, run_app. cbn [repeat run].
      rewrite ST. cbn [bindO]. change (LStep t :: LStep t :: LStep t :: [LStep t]) with
        (repeat (LStep t) 2 ++ repeat (LStep t) 2). rewrite repeat_app, run_app, E3. exact E4. }
    unfold shows, set_lock. cbn [q_mem q_tail q_head q_lock q_fails q_over].
    rewrite M4, M3, M2, T4, H4, H3, F4, F3, F2, V4, V3, V2, O4, L4, L3, L2.
    cbn [n_next]. repeat split; auto; try congruence.
    + intros u Hu. rewrite U4, U3 by assumption. rewrite set_pc_other by assumption. now apply U2'.
    + rewrite !put_in_app. cbn [put_in]. now rewrite app_nil_r.
  - cbn [bindO q_mem q_tail q_head q_asize q_lock q_block q_fails q_over] in E.
    rewrite Dt' in E. cbn [bindO n_next] in E. injection E as <-.
    destruct (tail_run t m (goto s2 t (WTail m)) (mkNode m (n_next n))) as
      (s4 & E4 & P4 & M4 & T4 & H4 & O4 & F4 & V4 & L4 & U4).
    { apply goto_pc. }
    { unfold goto. cbn [c_mem c_tail]. now rewrite M2, T2. }
    unfold goto in M4, T4, H4, O4, F4, V4, L4, U4.
    cbn [c_mem c_tail c_head c_owner c_fails c_over c_pc c_log] in M4, T4, H4, O4, F4, V4, L4, U4.
    exists (8 + (1 + 2)), s4. split.
    { rewrite repeat_app, run_app, E2. cbn [bindO]. rewrite repeat_app, run_app. cbn [repeat run].
      rewrite ST. cbn [bindO]. exact E4. }
    unfold shows, set_lock. cbn [q_mem q_tail q_head q_lock q_fails q_over].
    rewrite M4, M2, T4, H4, H2, F4, F2, V4, V2, O4, L4, L2.
    cbn [n_next]. repeat split; auto; try congruence.
    + intros u Hu. rewrite U4 by assumption. rewrite set_pc_other by assumption. now apply U2'.
    + now rewrite put_in_app.
Qed.

(** Copying the fields one by one. *)
Lemma copy_run : forall j k t d s n, j + k = 8 -> k <= 7 -> c_pc s t = RCopy k d ->
  deref (c_mem s) (c_head s) = Ret n -> same k (n_msg n) d ->
  exists s', run (repeat (LStep t) j) s = Ret s' /\ c_pc s' t = RAdvance (n_msg n) /\
    c_mem s' = c_mem s /\ c_tail s' = c_tail s /\ c_head s' = c_head s /\ c_owner s' = c_owner s /\
    c_fails s' = c_fails s /\ c_over s' = c_over s /\ c_log s' = c_log s /\
    (forall u, u <> t -> c_pc s' u = c_pc s u).
Proof.
  induction j as [|j IH]; intros k t d s n Hj Hk P D Sm; [lia|].
  cbn [repeat run step]. rewrite P, D. cbn [bindO]. unfold goto.
  destruct (Nat.ltb_spec k 7) as [Lt|Ge].
  - match goal with |- exists s', run _ ?s1 = _ /\ _ =>
      destruct (IH (S k) t (copy_field k (n_msg n) d) s1 n) as
        (s' & E & P' & M' & T' & H' & O' & F' & V' & L' & U') end.
    + lia.
    + lia.
    + cbn [c_pc]. apply set_pc_same.
    + exact D.
    + now apply same_copy.
    + cbn [c_mem c_tail c_head c_owner c_fails c_over c_pc c_log] in *.
      exists s'. repeat split; auto. intros u Hu. rewrite U' by assumption. now apply set_pc_other.
  - assert (k = 7) by lia. subst k. assert (j = 0) by lia. subst j. cbn [repeat run].
    eexists; split; [reflexivity|].
    cbn [c_mem c_tail c_head c_owner c_fails c_over c_pc c_log].
    assert (EM : copy_field 7 (n_msg n) d = n_msg n) by (symmetry; apply same_all; now apply same_copy).
    rewrite EM, set_pc_same. repeat split; auto. intros u Hu. now apply set_pc_other.
Qed.

Lemma adv_run : forall t d s n, c_pc s t = RAdvance d -> deref (c_mem s) (c_head s) = Ret n ->
  exists s', run (repeat (LStep t) 2) s = Ret s' /\ c_pc s' t = Idle /\
    c_mem s' = c_mem s /\ c_tail s' = c_tail s /\ c_head s' = n_next n /\ c_owner s' = None /\
    c_fails s' = c_fails s /\ c_over s' = c_over s /\ c_log s' = c_log s ++ [EHanded t d] /\
    (forall u, u <> t -> c_pc s' u = c_pc s u).
Proof.
  intros t m s n P D.
  assert (A1 : step (LStep t) s = Ret (emit (goto (mkState (c_mem s) (c_tail s) (n_next n) (c_owner s) (c_fails s) (c_over s)
                                   (c_pc s) (c_log s)) t (RUnlock m)) (EHanded t m))) by (cbn [step]; now rewrite P, D).
  match type of A1 with _ = Ret ?x => set (s1 := x) in * end.
  assert (P1 : c_pc s1 t = RUnlock m) by apply set_pc_same.
  assert (A2 : step (LStep t) s1 = Ret (goto (with_owner s1 None) t Idle)) by (cbn [step]; now rewrite P1).
  cbn [repeat run]. rewrite A1. cbn [bindO]. rewrite A2. cbn [bindO].
  eexists; split; [reflexivity|]. unfold s1, emit, goto.
  unfold with_owner. cbn [c_mem c_tail c_head c_owner c_fails c_over c_pc c_log].
  rewrite set_pc_same. repeat split; auto. intros u Hu. now rewrite !set_pc_other by assumption.
Qed.

Lemma solo_remove : forall t s q q' x a, rep q a -> shows s q -> c_pc s t = Idle ->
  remove_msg q = Ret (q', x) ->
  exists k s', run (LRemove t :: repeat (LStep t) k) s = Ret s' /\
    shows s' q' /\ c_pc s' t = Idle /\ (forall u, u <> t -> c_pc s' u = c_pc s u) /\
    c_log s' = c_log s ++ [match x with Some m => EHanded t m | None => EEmpty t end].
Proof.
  intros t s q q' x a R (S1 & S2 & S3 & S4 & S5 & S6) P E.
  unfold remove_msg, lock in E. rewrite (rep_lock _ _ R) in *.
  pose proof (proj2 S4 eq_refl) as O.
  assert (B : run (LRemove t :: repeat (LStep t) 2) s =
     if is_empty q then Ret (emit (goto (goto (goto s t RAsk) t (RGotHead (c_head s))) t Idle) (EEmpty t))
     else Ret (goto (goto (goto s t RAsk) t (RGotHead (c_head s))) t RLock)).
  { cbn [repeat run step]. rewrite P. cbn [bindO]. rewrite goto_pc.
    cbn [bindO]. rewrite goto_pc.
    unfold is_empty. rewrite <- S2, <- S3.
    change (c_head (goto s t RAsk)) with (c_head s).
    change (c_tail (goto (goto s t RAsk) t (RGotHead (c_head s)))) with (c_tail s). destruct (ptr_eqb (c_head s) (c_tail s)); reflexivity. }
  destruct (is_empty q).
  - injection E as <- <-. exists 2. eexists. split; [exact B|].
    unfold emit, goto, shows. cbn [c_mem c_tail c_head c_owner c_fails c_over c_pc c_log].
    rewrite set_pc_same. repeat split; auto; try congruence.
    + intros _. apply (rep_lock _ _ R).
    + intros u Hu. now rewrite !set_pc_other by assumption.
  - cbn [bindO] in E. unfold set_lock in E.
    cbn [q_mem q_tail q_head q_asize q_lock q_block q_fails q_over] in E.
    destruct (deref (q_mem q) (q_head q)) as [n| |] eqn:D; cbn [bindO] in E; try discriminate E.
    injection E as <- <-. rewrite read_fields_eq.
    set (s1 := goto (goto (goto s t RAsk) t (RGotHead (c_head s))) t RLock) in *.
    assert (B2 : step (LStep t) s1 = Ret (goto (with_owner s1 (Some t)) t (RCopy 0 msg0))).
    { cbn [step]. unfold s1, goto. cbn [c_pc]. rewrite set_pc_same. cbn [c_owner]. rewrite O. reflexivity. }
    destruct (copy_run 8 0 t msg0 (goto (with_owner s1 (Some t)) t (RCopy 0 msg0)) n) as
      (s2 & E2 & P2 & M2 & T2 & H2 & O2 & F2 & V2 & L2 & U2).
    + lia.
    + lia.
    + unfold goto; cbn [c_pc]. apply set_pc_same.
    + unfold s1, goto, with_owner. cbn [c_mem c_head]. now rewrite S1, S3.
    + apply same_0.
    + unfold s1, goto, with_owner in M2, T2, H2, O2, F2, V2, L2, U2.
      cbn [c_mem c_tail c_head c_owner c_fails c_over c_pc c_log] in *.
      destruct (adv_run t (n_msg n) s2 n P2) as
        (s4 & E4 & P4 & M4 & T4 & H4 & O4 & F4 & V4 & L4 & U4).
      { now rewrite M2, H2, S1, S3. }
      exists (2 + (1 + (8 + 2))), s4. split.
      { replace (LRemove t :: repeat (LStep t) (2 + (1 + (8 + 2)))) with
          ((LRemove t :: repeat (LStep t) 2) ++ repeat (LStep t) (1 + (8 + 2)))
          by now rewrite (repeat_app (LStep t) 2 (1 + (8 + 2))).
        rewrite run_app, B. cbn [bindO]. rewrite repeat_app, run_app.
        cbn [repeat run]. rewrite B2. cbn [bindO].
        rewrite (repeat_app (LStep t) 8 2), run_app, E2. exact E4. }
      unfold shows. cbn [q_mem q_tail q_head q_lock q_fails q_over].
      rewrite M4, M2, T4, T2, H4, F4, F2, V4, V2, O4, L4, L2.
      repeat split; auto; try congruence.
      intros u Hu. rewrite U4, U2 by assumption. now rewrite !set_pc_other by assumption.
Qed.

(** ** The holder of the mutex lets it go after at most thirteen steps *)

Definition steps_left (p : pc) : nat :=
  match p with
  | WFill _ k => 13 - k
  | WTest _ => 5 | WHead _ => 4 | WCount _ => 3 | WTail _ => 2 | WUnlock _ => 1
  | RCopy k _ => 10 - k | RAdvance _ => 2 | RUnlock _ => 1
  | _ => 0
  end.

Lemma holder_runs : forall j r s items t, Inv r s items -> c_owner s = Some t ->
  steps_left (c_pc s t) <= j ->
  exists k s', k <= j /\ run (repeat (LStep t) k) s = Ret s' /\ c_owner s' = None.
Proof.
  induction j as [|j IH]; intros r s items t V O Hj.
  - pose proof (proj2 (i_owner _ _ _ V t) O) as C. pose proof (i_cond _ _ _ V t) as K.
    destruct (c_pc s t); cbn [in_cs steps_left cond] in *; try discriminate C; lia.
  - pose proof (step_inv r (LStep t) s items V I) as X.
    pose proof (proj2 (i_owner _ _ _ V t) O) as C. pose proof (i_cond _ _ _ V t) as K.
    assert (Y : exists s1, step (LStep t) s = Ret s1 /\
              (c_owner s1 = None \/ (c_owner s1 = Some t /\ steps_left (c_pc s1 t) < steps_left (c_pc s t)))).
    { cbn [step] in *. destruct (c_pc s t) eqn:P; cbn [in_cs cond] in *; try discriminate C.
      - destruct (deref (c_mem s) (c_tail s)); cbn [bindO] in *; try contradiction.
        + eexists; split; [reflexivity|]. right. split; [exact O|].
          unfold goto. cbn [c_pc]. rewrite set_pc_same.
          destruct (Nat.ltb_spec k 7); cbn [steps_left]; lia.
        + destruct K as (_ & ? & K & _). discriminate K.
      - destruct (deref (c_mem s) (c_tail s)); cbn [bindO] in *; try contradiction.
        + eexists; split; [reflexivity|]. right. split; [exact O|].
          unfold goto. cbn [c_pc]. rewrite set_pc_same.
          destruct (ptr_eqb (n_next a) (c_head s)); cbn [steps_left]; lia.
        + destruct K as (? & K & _). discriminate K.
      - destruct (deref (c_mem s) (c_head s)) eqn:D; cbn [bindO] in *; try contradiction.
        + eexists; split; [reflexivity|]. right. split; [exact O|].
          unfold emit, goto. cbn [c_pc]. rewrite set_pc_same. cbn [steps_left]. lia.
        + exfalso. unfold deref in D. destruct (c_head s); [|discriminate D].
          destruct (nth_error (c_mem s) n); discriminate D.
      - eexists; split; [reflexivity|]. right. split; [exact O|].
        unfold goto. cbn [c_pc]. rewrite set_pc_same. cbn [steps_left]. lia.
      - destruct (deref (c_mem s) (c_tail s)); cbn [bindO] in *; try contradiction.
        + eexists; split; [reflexivity|]. right. split; [exact O|].
          unfold emit, goto. cbn [c_pc]. rewrite set_pc_same. cbn [steps_left]. lia.
        + destruct K as ((? & K & _) & _). discriminate K.
      - eexists; split; [reflexivity|]. left. reflexivity.
      - destruct (deref (c_mem s) (c_head s)) eqn:D; cbn [bindO] in *; try contradiction.
        + eexists; split; [reflexivity|]. right. split; [exact O|].
          unfold goto. cbn [c_pc]. rewrite set_pc_same.
          destruct (Nat.ltb_spec k 7); cbn [steps_left]; lia.
        + exfalso. unfold deref in D. destruct (c_head s); [|discriminate D].
          destruct (nth_error (c_mem s) n); discriminate D.
      - destruct (deref (c_mem s) (c_head s)) eqn:D; cbn [bindO] in *; try contradiction.
        + eexists; split; [reflexivity|]. right. split; [exact O|].
          unfold emit, goto. cbn [c_pc]. rewrite set_pc_same. cbn [steps_left]. lia.
        + exfalso. unfold deref in D. destruct (c_head s); [|discriminate D].
          destruct (nth_error (c_mem s) n); discriminate D.
      - eexists; split; [reflexivity|]. left. reflexivity. }
    destruct Y as (s1 & E & [Y|[Y1 Y2]]).
    + exists 1, s1. cbn [repeat run]. rewrite E. split; [lia | auto].
    + rewrite E in X. destruct X as (items1 & V1).
      destruct (IH r s1 items1 t V1 Y1 ltac:(lia)) as (k & s' & Hk & R & O').
      exists (S k), s'. cbn [repeat run]. rewrite E. cbn [bindO]. split; [lia | auto].
Qed.

(** ** The count of skipped messages, with one writer *)

Definition inv_fail (w : nat) (s : State) : Prop :=
  c_fails s = Z.of_nat (skipped (c_log s)) /\
  forall t, match c_pc s t with
            | WAsk _ | WFailRead _ => t = w
            | WFailWrite _ v => t = w /\ v = c_fails s
            | _ => True
            end.

Lemma step_fail : forall w l s s', inv_fail w s -> only_writer w l -> step l s = Ret s' -> inv_fail w s'.
Proof.
  intros w l s s' [F K] OW E.
  assert (G : forall t p, match p with
            | WAsk _ | WFailRead _ => t = w
            | WFailWrite _ v => t = w /\ v = c_fails s
            | _ => True end ->
            forall u, match set_pc (c_pc s) t p u with
            | WAsk _ | WFailRead _ => u = w
            | WFailWrite _ v => u = w /\ v = c_fails s
            | _ => True end).
  { intros t p Hp u. destruct (Nat.eq_dec u t) as [->|D]; [now rewrite set_pc_same|].
    rewrite set_pc_other by assumption. apply K. }
  destruct l as [t m|t|t|t|t|t]; cbn [step only_writer] in *; pose proof (K t) as Kt;
    destruct (c_pc s t) eqn:P; try discriminate E;
    try (destruct (c_owner s); try discriminate E);
    try (destruct (deref (c_mem s) (c_tail s)); cbn [bindO] in E; try discriminate E);
    try (destruct (deref (c_mem s) (c_head s)); cbn [bindO] in E; try discriminate E);
    try (destruct (ptr_eqb _ _)); try (destruct (k <? 7));
    injection E as <-; unfold emit, goto, with_owner, inv_fail;
    cbn [c_mem c_tail c_head c_owner c_fails c_over c_pc c_log];
    rewrite ?skipped_app; cbn [skipped]; rewrite ?Nat.add_0_r;
    try (split; [assumption | apply G; auto; fail]).
  (* WFailWrite *)
  all: destruct Kt as [-> ->]; split; [lia|]; intro u; destruct (Nat.eq_dec u w) as [->|D];
    [rewrite set_pc_same; exact I | rewrite set_pc_other by assumption; specialize (K u);
     destruct (c_pc s u); auto; destruct K; congruence].
Qed.

Lemma run_fail : forall w ls s s', inv_fail w s -> Forall (only_writer w) ls ->
  run ls s = Ret s' -> inv_fail w s'.
Proof.
  induction ls as [|l ls IH]; cbn [run]; intros s s' V F E.
  - assert (s' = s) by congruence. now subst s'.
  - inversion F as [|? ? F1 F2]; subst.
    destruct (step l s) as [s1| |] eqn:E1; cbn [bindO] in E; try discriminate E.
    exact (IH s1 s' (step_fail w l s s1 V F1 E1) F2 E).
Qed.
