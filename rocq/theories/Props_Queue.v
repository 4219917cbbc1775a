(** * Properties of the health and status message queue *)
From Coq Require Import List ZArith Bool Lia Arith String.
From Verif Require Import MsgQueue Spec_Queue MsgQueueFacts MsgQueueConc Spec_QueueConc MsgQueueConcFacts.
Import ListNotations.
Local Open Scope Z_scope.

(** ** C39: the queue is a bounded FIFO that drops the oldest *)

(** Every run of calls shows exactly what the bounded list shows, as long as the
    count of lost messages fits an int. *)
Theorem C39_bounded_fifo : forall size b ops, size_ok size -> Forall op_ok ops ->
  let (a, ss) := a_run (mkA (Z.max size 1) [] 0 b) ops in
  a_lost a <= int_max ->
  exists q0 q, queue_make size b = Ret q0 /\ run_ops q0 ops = Ret (q, ss).
Proof.
  intros size b ops Hs Ho. destruct (make_rep size b Hs) as (q0 & E0 & R0).
  assert (B : q_over q0 <= int_max) by (rewrite (rep_over _ _ R0); cbn; unfold int_max; lia).
  destruct (run_rep ops q0 _ R0 B Ho) as [_ S].
  destruct (a_run (mkA (Z.max size 1) [] 0 b) ops) as [a ss]. cbn [fst snd] in S.
  intro L. destruct (S L) as (q & E & _). eauto.
Qed.

(** A queue made by the default constructor and then initialised is the same as
    one made with that size. *)
Theorem C39_initialize_fresh : forall size b, initialize queue_default size b = queue_make size b.
Proof. reflexivity. Qed.

(** Beyond that the count itself overflows. *)
Theorem C39_count_overflow : forall size b ops, size_ok size -> Forall op_ok ops ->
  int_max < a_lost (fst (a_run (mkA (Z.max size 1) [] 0 b) ops)) ->
  exists q0, queue_make size b = Ret q0 /\ run_ops q0 ops = UB.
Proof.
  intros size b ops Hs Ho L. destruct (make_rep size b Hs) as (q0 & E0 & R0).
  assert (B : q_over q0 <= int_max) by (rewrite (rep_over _ _ R0); cbn; unfold int_max; lia).
  destruct (run_rep ops q0 _ R0 B Ho) as [U _]. exists q0. auto.
Qed.

(** Messages come out in the order they went in, each at most once; the ones
    that do not come out are still inside or were counted as lost, and the
    oldest are lost first. *)
Lemma split_app : forall l h d l' h' d', split_of l h d -> split_of l' h' d' ->
  split_of (l ++ l') (h ++ h') (d + d').
Proof.
  intros l h d l' h' d' H H'. induction H; cbn [app Nat.add]; auto; constructor; assumption.
Qed.

Lemma split_all_dropped : forall l, split_of l [] (List.length l).
Proof. induction l; cbn [List.length]; constructor; assumption. Qed.

Lemma a_run_split : forall ops a l0, 0 <= a_cap a -> 0 <= a_lost a ->
  let (a', ss) := a_run a ops in
  a_items a = l0 ->
  exists front, l0 ++ inserted ops = front ++ a_items a' /\
    split_of front (removed ss) (Z.to_nat (a_lost a' - a_lost a)) /\ a_lost a <= a_lost a'.
Proof.
  induction ops as [|o ops IH]; intros a l0 Hc Hl; cbn [a_run].
  - intro E. exists []. cbn [inserted removed]. rewrite app_nil_r, Z.sub_diag, E.
    repeat split; [constructor | lia].
  - assert (X : let a1 := fst (a_step a o) in let x := snd (a_step a o) in
       0 <= a_cap a1 /\ 0 <= a_lost a1 /\ a_lost a <= a_lost a1 /\
       exists f1, a_items a ++ match o with OInsert m => [m] | _ => [] end = f1 ++ a_items a1 /\
         split_of f1 (match x with Some m => [m] | None => [] end) (Z.to_nat (a_lost a1 - a_lost a))).
    { destruct o as [m| |n b|b]; cbn [a_step fst snd a_cap a_items a_lost].
      - repeat split; auto; try (pose proof (lost_nonneg (a_cap a) (a_items a ++ [m])); lia).
        exists (firstn (List.length (a_items a ++ [m]) - Z.to_nat (a_cap a)) (a_items a ++ [m])).
        split; [unfold newest; now rewrite firstn_skipn|].
        replace (Z.to_nat (a_lost a + lost (a_cap a) (a_items a ++ [m]) - a_lost a)) with
          (List.length (firstn (List.length (a_items a ++ [m]) - Z.to_nat (a_cap a)) (a_items a ++ [m]))).
        + apply split_all_dropped.
        + rewrite firstn_length. unfold lost. lia.
      - destruct (a_items a) as [|m r] eqn:E; cbn [fst snd a_cap a_items a_lost].
        + repeat split; auto; try lia. exists []. rewrite E, Z.sub_diag. split; [reflexivity | constructor].
        + repeat split; auto; try lia. exists [m]. rewrite Z.sub_diag, app_nil_r.
          split; [reflexivity | repeat constructor].
      - repeat split; auto; try lia; try (pose proof (lost_nonneg (Z.max n 1) (a_items a)); lia).
        exists (firstn (List.length (a_items a) - Z.to_nat (Z.max n 1)) (a_items a)).
        split; [unfold newest; now rewrite firstn_skipn, app_nil_r|].
        replace (Z.to_nat (a_lost a + lost (Z.max n 1) (a_items a) - a_lost a)) with
          (List.length (firstn (List.length (a_items a) - Z.to_nat (Z.max n 1)) (a_items a))).
        + apply split_all_dropped.
        + rewrite firstn_length. unfold lost. lia.
      - repeat split; auto; try lia. exists []. rewrite Z.sub_diag, app_nil_r. split; [reflexivity | constructor]. }
    destruct (a_step a o) as [a1 x]. cbn [fst snd] in X.
    destruct X as (C1 & L1 & L2 & f1 & E1 & S1).
    specialize (IH a1 (a_items a1) C1 L1). destruct (a_run a1 ops) as [a2 ss]. intro E.
    destruct (IH eq_refl) as (f2 & E2 & S2 & L3).
    exists (f1 ++ f2). split.
    + replace (inserted (o :: ops)) with (match o with OInsert m => [m] | _ => [] end ++ inserted ops)
        by (destruct o; reflexivity).
      rewrite <- E, !app_assoc, E1, <- !app_assoc, E2. reflexivity.
    + split; [|lia].
      replace (Z.to_nat (a_lost a2 - a_lost a)) with
        (Z.to_nat (a_lost a1 - a_lost a) + Z.to_nat (a_lost a2 - a_lost a1))%nat by lia.
      replace (removed (a_seen a1 x :: ss)) with (match x with Some m => [m] | None => [] end ++ removed ss)
        by (destruct x; reflexivity).
      now apply split_app.
Qed.

Theorem C39_in_order : forall size b ops q0 q ss, size_ok size -> Forall op_ok ops ->
  queue_make size b = Ret q0 -> run_ops q0 ops = Ret (q, ss) ->
  exists front rest, inserted ops = front ++ rest /\
    split_of front (removed ss) (Z.to_nat (q_over q)) /\
    Z.of_nat (List.length rest) = get_size q /\
    exists q' ss', run_ops q (repeat ORemove (List.length rest)) = Ret (q', ss') /\
      removed ss' = rest /\ get_size q' = 0.
Proof.
  intros size b ops q0 q ss Hs Ho E0 E.
  destruct (make_rep size b Hs) as (q0' & E0' & R0).
  assert (q0' = q0) by congruence. subst q0'.
  assert (B : q_over q0 <= int_max) by (rewrite (rep_over _ _ R0); cbn; unfold int_max; lia).
  destruct (run_rep ops q0 _ R0 B Ho) as [U S].
  pose proof (a_run_split ops (mkA (Z.max size 1) [] 0 b) [] ltac:(cbn; lia) ltac:(cbn; lia)) as X.
  destruct (a_run (mkA (Z.max size 1) [] 0 b) ops) as [a ss']. cbn [fst snd a_items a_lost] in *.
  destruct (Z_le_gt_dec (a_lost a) int_max) as [Le|Gt]; [|rewrite U in E by lia; discriminate E].
  destruct (S Le) as (q' & E' & R'). rewrite E in E'. injection E' as <- <-.
  destruct (X eq_refl) as (front & E1 & S1 & _). cbn [app] in E1.
  exists front, (a_items a). rewrite (rep_over _ _ R'), (rep_size _ _ R').
  rewrite Z.sub_0_r in S1. repeat split; auto.
  assert (Z0 : forall l a, a_items a = l ->
       a_lost (fst (a_run a (repeat ORemove (List.length l)))) = a_lost a /\
       a_items (fst (a_run a (repeat ORemove (List.length l)))) = [] /\
       removed (snd (a_run a (repeat ORemove (List.length l)))) = l).
    { clear. induction l as [|m r IH]; intros a El; cbn [List.length repeat a_run]; [auto|].
      cbn [a_step]. rewrite El. cbn [fst snd].
      specialize (IH (mkA (a_cap a) r (a_lost a) (a_blocking a)) eq_refl).
      destruct (a_run (mkA (a_cap a) r (a_lost a) (a_blocking a)) (repeat ORemove (List.length r))).
      cbn [fst snd] in *. destruct IH as (I1 & I0 & I2). split; [exact I1|]. split; [exact I0|].
      cbn [removed a_seen s_removed]. now rewrite I2. }
    destruct (Z0 (a_items a) a eq_refl) as (ZL & ZI & ZR).
    destruct (run_rep (repeat ORemove (List.length (a_items a))) q a R') as [_ S2].
    + rewrite (rep_over _ _ R'). exact Le.
    + apply Forall_forall. intros o Ho'. apply repeat_spec in Ho'. now subst o.
    + destruct S2 as (q2 & E2 & R2); [lia|]. exists q2. eexists. split; [exact E2|].
      split; [exact ZR|]. now rewrite (rep_size _ _ R2), ZI.
Qed.

(** After every call the size is between zero and the capacity, and the queue
    says it is empty exactly when the size is zero. *)
Theorem C39_size_bounded : forall size b ops q0 q ss, size_ok size -> Forall op_ok ops ->
  queue_make size b = Ret q0 -> run_ops q0 ops = Ret (q, ss) ->
  Forall (fun s => 0 <= s_size s <= s_capacity s /\ 1 <= s_capacity s /\
                   s_empty s = (s_size s =? 0) /\ s_fails s = 0) ss.
Proof.
  intros size b ops q0 q ss Hs Ho E0 E.
  destruct (make_rep size b Hs) as (q0' & E0' & R0).
  assert (q0' = q0) by congruence. subst q0'.
  assert (B : q_over q0 <= int_max) by (rewrite (rep_over _ _ R0); cbn; unfold int_max; lia).
  clear E0 E0'. revert q0 R0 B E. generalize (mkA (Z.max size 1) [] 0 b). clear Hs.
  revert ss q. induction Ho as [|o ops O1 O2 IH]; intros ss q a q0 R0 B E; cbn [run_ops] in E.
  - injection E as <- <-. constructor.
  - destruct (op_rep q0 a o R0 B O1) as [U S].
    destruct (Z_le_gt_dec (a_lost (fst (a_step a o))) int_max) as [Le|Gt];
      [|rewrite U in E by lia; discriminate E].
    destruct (S Le) as (q1 & E1 & R1). rewrite E1 in E. cbn [bindO] in E.
    destruct (run_ops q1 ops) as [[q2 ss2]| |] eqn:E2; cbn [bindO] in E; try discriminate E.
    injection E as <- <-. constructor.
    + rewrite (rep_seen _ _ _ R1). cbn [a_seen s_size s_capacity s_empty s_fails].
      pose proof (rep_len _ _ R1) as L. pose proof (rep_cap _ _ R1) as C.
      destruct (rep_ring _ _ R1) as [N2 _].
      repeat split; try lia. destruct (a_items (fst (a_step a o))); [reflexivity|].
      cbn [List.length]. symmetry. apply Z.eqb_neq. lia.
    + eapply IH; [exact R1 | | exact E2]. rewrite (rep_over _ _ R1). exact Le.
Qed.

(** The largest size: size + 1 overflows. *)
Theorem C39_largest_size : forall b, queue_make int_max b = UB.
Proof. reflexivity. Qed.

(** A queue that was never given a size cannot take a message. *)
Theorem C39_insert_before_initialize : forall m, insert_msg queue_default m = UB.
Proof. reflexivity. Qed.

Definition msg_n (n : Z) : Msg := mkMsg "f" n "g" 1 "s" "t" [] n.

Example C39_example :
  exists q0 q ss, queue_make 2 false = Ret q0 /\
    run_ops q0 [OInsert (msg_n 1); OInsert (msg_n 2); OInsert (msg_n 3); ORemove; OInsert (msg_n 4);
                OInsert (msg_n 5); OInit 1 true; ORemove; ORemove] = Ret (q, ss) /\
    removed ss = [msg_n 2; msg_n 5] /\ q_over q = 3 /\
    map s_size ss = [1; 2; 2; 1; 2; 2; 1; 0; 0].
Proof.
  eexists; eexists; eexists. split; [reflexivity|]. split; [vm_compute; reflexivity|].
  vm_compute. auto.
Qed.

Print Assumptions C39_bounded_fifo.
Print Assumptions C39_in_order.
Print Assumptions C39_size_bounded.

(** ** C40: one reader and many writers *)

Theorem C40_one_reader : forall size b q r ls s, queue_make size b = Ret q ->
  Forall (only_reader r) ls -> run ls (conc_of q) = Ret s ->
  sublist (handed_out (c_log s)) (put_in (c_log s)) /\
  exists front inside, put_in (c_log s) = front ++ inside /\
    merge_of front (handed_out (c_log s)) (dropped (c_log s)) /\
    (List.length inside < List.length (q_mem q))%nat.
Proof.
  intros size b q r ls s E F R.
  assert (Hs : size_ok size).
  { unfold size_ok. unfold queue_make, alloc_queue, alloc_size, int_inc in E.
    destruct (Z.leb_spec int_max size); [discriminate E | assumption]. }
  destruct (make_rep size b Hs) as (q' & E' & R'). assert (q' = q) by congruence. subst q'.
  assert (M : List.length (c_mem s) = List.length (q_mem q)).
  { assert (G : forall l s1 s2, step l s1 = Ret s2 -> List.length (c_mem s2) = List.length (c_mem s1)).
    { clear. intros l s1 s2 E. destruct l as [t m|t|t|t|t|t]; cbn [step] in E;
        destruct (c_pc s1 t); try discriminate E;
        try (destruct (c_owner s1); try discriminate E);
        try (destruct (deref (c_mem s1) (c_tail s1)); cbn [bindO] in E; try discriminate E);
        try (destruct (deref (c_mem s1) (c_head s1)); cbn [bindO] in E; try discriminate E);
        try (destruct (ptr_eqb _ _)); injection E as <-;
        unfold emit, goto, with_owner; cbn [c_mem]; auto;
        destruct (c_tail s1); cbn [store]; auto; apply set_nth_length. }
    clear - G R. change (List.length (q_mem q)) with (List.length (c_mem (conc_of q))).
    revert R. generalize (conc_of q). induction ls as [|l ls IH]; cbn [run]; intros s0 R.
    - congruence.
    - destruct (step l s0) as [s1| |] eqn:E; cbn [bindO] in R; try discriminate R.
      rewrite (IH s1 R). eauto. }
  pose proof (run_inv r ls (conc_of q) [] (conc_inv r q _ R' eq_refl (rep_over _ _ R')) F) as X.
  rewrite R in X. destruct X as (inside & V). destruct (i_log _ _ _ V) as (front & E1 & E2).
  split.
  - rewrite E1. eapply merge_sublist. exact E2.
  - exists front, inside. repeat split; auto. rewrite <- M. apply (i_len _ _ _ V).
Qed.

(** No interleaving is undefined, whoever holds the mutex releases it within
    thirteen of its own steps, and the overflow count is right whenever the
    mutex is free. *)
Theorem C40_one_reader_safe : forall size b q r ls, queue_make size b = Ret q ->
  Forall (only_reader r) ls ->
  run ls (conc_of q) <> UB /\
  forall s, run ls (conc_of q) = Ret s ->
    (forall t, c_owner s = Some t ->
       exists k s', (k <= 13)%nat /\ run (repeat (LStep t) k) s = Ret s' /\ c_owner s' = None) /\
    (c_owner s = None -> c_over s = Z.of_nat (List.length (dropped (c_log s)))).
Proof.
  intros size b q r ls E F.
  assert (Hs : size_ok size).
  { unfold size_ok. unfold queue_make, alloc_queue, alloc_size, int_inc in E.
    destruct (Z.leb_spec int_max size); [discriminate E | assumption]. }
  destruct (make_rep size b Hs) as (q' & E' & R'). assert (q' = q) by congruence. subst q'.
  pose proof (run_inv r ls (conc_of q) [] (conc_inv r q _ R' eq_refl (rep_over _ _ R')) F) as X.
  split.
  - intro U. now rewrite U in X.
  - intros s R. rewrite R in X. destruct X as (inside & V). split.
    + intros t O. apply (holder_runs 13 r s inside t V O).
      pose proof (i_cond _ _ _ V t) as K. destruct (c_pc s t); cbn [steps_left]; lia.
    + intro O. pose proof (i_over _ _ _ V) as OV. rewrite O in OV. cbn [counting] in OV. lia.
Qed.

(** A thread that runs alone does exactly what the sequential model says. *)
Theorem C40_alone_insert : forall t m s q q' a, rep q a -> shows s q -> c_pc s t = Idle ->
  insert_msg q m = Ret q' ->
  exists k s', run (LInsert t m :: LTry t :: repeat (LStep t) k) s = Ret s' /\
    shows s' q' /\ c_pc s' t = Idle /\ (forall u, u <> t -> c_pc s' u = c_pc s u) /\
    put_in (c_log s') = put_in (c_log s) ++ [m].
Proof. exact solo_insert. Qed.

Theorem C40_alone_remove : forall t s q q' x a, rep q a -> shows s q -> c_pc s t = Idle ->
  remove_msg q = Ret (q', x) ->
  exists k s', run (LRemove t :: repeat (LStep t) k) s = Ret s' /\
    shows s' q' /\ c_pc s' t = Idle /\ (forall u, u <> t -> c_pc s' u = c_pc s u) /\
    c_log s' = c_log s ++ [match x with Some m => EHanded t m | None => EEmpty t end].
Proof. exact solo_remove. Qed.

(** Two writers and a reader, all in the middle of their calls at once. *)
Definition ex_queue (n : nat) : Queue :=
  mkQueue (fresh_mem (S n)) (Z.of_nat (S n)) (Some 0%nat) (Some 0%nat) false false 0 0.

Definition ex_labels : list label :=
  [LInsert 0 (msg_n 1); LInsert 1 (msg_n 2); LTry 0; LTry 1; LStep 1; LStep 1]
  ++ repeat (LStep 0) 9 ++ [LRemove 2; LTailFirst 2] ++ repeat (LStep 0) 2
  ++ [LStep 2; LInsert 1 (msg_n 3); LRemove 2; LStep 2; LStep 2; LBlocking 1]
  ++ repeat (LStep 1) 11 ++ repeat (LStep 2) 11.

Example C40_example :
  queue_make 3 false = Ret (ex_queue 3) /\ Forall (only_reader 2) ex_labels /\
  exists s, run ex_labels (conc_of (ex_queue 3)) = Ret s /\
    put_in (c_log s) = [msg_n 1; msg_n 3] /\ handed_out (c_log s) = [msg_n 1] /\
    skipped (c_log s) = 1%nat.
Proof.
  split; [reflexivity|]. split.
  - unfold ex_labels. cbn [repeat app]. repeat (constructor; [cbn [only_reader]; auto|]). constructor.
  - eexists. split; [vm_compute; reflexivity|]. vm_compute. auto.
Qed.

Print Assumptions C40_one_reader.
Print Assumptions C40_one_reader_safe.

(** ** C41: two readers *)

(** Two readers see one message in the queue, and both take one.  The second
    gets a message that nobody inserted. *)
Definition two_readers : list label :=
  [LInsert 0 (msg_n 1); LTry 0] ++ repeat (LStep 0) 11 ++
  [LRemove 1; LRemove 2; LStep 1; LStep 1; LStep 2; LStep 2] ++
  repeat (LStep 1) 11 ++ repeat (LStep 2) 11.

Theorem C41_several_readers_refuted :
  exists size q ls s m, queue_make size false = Ret q /\ run ls (conc_of q) = Ret s /\
    (forall l, In l ls -> match l with LRemove t => t = 1%nat \/ t = 2%nat | _ => True end) /\
    In m (handed_out (c_log s)) /\ ~ In m (put_in (c_log s)) /\
    (List.length (put_in (c_log s)) < List.length (handed_out (c_log s)))%nat.
Proof.
  exists 3, (ex_queue 3), two_readers. eexists. exists msg0.
  split; [reflexivity|]. split; [vm_compute; reflexivity|].
  split.
  2: { split; [vm_compute; auto|]. split; [|vm_compute; lia].
       vm_compute. intros [X|[]]. discriminate X. }
  intros l Hl. unfold two_readers in Hl. cbn [repeat app] in Hl. cbn [In] in Hl.
  repeat (destruct Hl as [<-|Hl]; [auto|]). contradiction.
Qed.

Print Assumptions C41_several_readers_refuted.

(** ** C69: getLockFailures counts the skipped messages *)

Theorem C69_lock_failures_one_writer : forall size b q w ls s, queue_make size b = Ret q ->
  Forall (only_writer w) ls -> run ls (conc_of q) = Ret s ->
  c_fails s = Z.of_nat (skipped (c_log s)).
Proof.
  intros size b q w ls s E F R.
  assert (Q : q_fails q = 0).
  { unfold queue_make, alloc_queue, alloc_size, int_inc in E.
    destruct (int_max <=? size); cbn [bindO] in E; [discriminate E|].
    destruct (Z.max (size + 1) 2 =? _) in E; injection E as <-; reflexivity. }
  apply (run_fail w ls (conc_of q) s); auto. split.
  - cbn [conc_of c_fails c_log skipped]. exact Q.
  - intro t. exact I.
Qed.

(** With two writers an increment can be lost: both read the count before
    either writes it. *)
Definition lost_increment : list label :=
  [LInsert 0 (msg_n 1); LTry 0; LInsert 1 (msg_n 2); LTry 1; LInsert 2 (msg_n 3); LTry 2;
   LStep 1; LStep 2; LStep 1; LStep 2].

Theorem C69_lock_failures_refuted :
  exists size q ls s, queue_make size false = Ret q /\ run ls (conc_of q) = Ret s /\
    (forall l, In l ls -> match l with LRemove _ => False | _ => True end) /\
    skipped (c_log s) = 2%nat /\ c_fails s = 1.
Proof.
  exists 3, (ex_queue 3), lost_increment. eexists.
  split; [reflexivity|]. split; [vm_compute; reflexivity|].
  split; [|vm_compute; auto].
  intros l Hl. unfold lost_increment in Hl. cbn [In] in Hl.
  repeat (destruct Hl as [<-|Hl]; [exact I|]). contradiction.
Qed.

Example C69_example :
  exists s, run [LInsert 0 (msg_n 1); LRemove 1; LTry 0] (conc_of (ex_queue 3)) = Ret s /\
    Forall (only_writer 0) [LInsert 0 (msg_n 1); LRemove 1; LTry 0] /\ c_owner s = Some 0%nat.
Proof.
  eexists. split; [vm_compute; reflexivity|]. split; [|reflexivity].
  repeat (constructor; [cbn [only_writer]; auto|]). constructor.
Qed.

Print Assumptions C69_lock_failures_one_writer.
Print Assumptions C69_lock_failures_refuted.

(** ** C70: removeMsg says empty only when the queue is empty *)

(** How many messages are in the queue according to what happened. *)
Definition held (s : State) : Z :=
  Z.of_nat (List.length (put_in (c_log s))) - Z.of_nat (List.length (handed_out (c_log s)))
  - Z.of_nat (List.length (dropped (c_log s))).

(** With one thread this is so. *)
Theorem C70_empty_alone : forall q a q' x, rep q a -> remove_msg q = Ret (q', x) ->
  (x = None <-> get_size q = 0).
Proof.
  intros q a q' x R E. destruct (remove_rep q a R) as (q1 & E1 & _). rewrite E in E1.
  injection E1 as <- ->. rewrite (rep_size _ _ R). cbn [a_step].
  destruct (a_items a); cbn [snd List.length]; split; intro H; auto; try discriminate H; lia.
Qed.

(** The reader reads mHead, the writer goes round the ring, and the reader then
    finds the same node in mTail. *)
Definition fill_two : list label :=
  [LInsert 0 (msg_n 1); LTry 0] ++ repeat (LStep 0) 11 ++
  [LInsert 0 (msg_n 2); LTry 0] ++ repeat (LStep 0) 11.
Definition around : list label :=
  [LRemove 1; LStep 1; LInsert 0 (msg_n 3); LTry 0] ++ repeat (LStep 0) 13 ++ [LStep 1].

Theorem C70_empty_means_empty_refuted :
  exists size q ls1 ls2 s1 s2, queue_make size false = Ret q /\
    run ls1 (conc_of q) = Ret s1 /\ run ls2 s1 = Ret s2 /\
    hd_error ls2 = Some (LRemove 1) /\ c_pc s2 1%nat = Idle /\
    last (c_log s2) (EDropped msg0) = EEmpty 1 /\
    forall k s, run (firstn k ls2) s1 = Ret s -> 1 <= held s.
Proof.
  exists 2, (ex_queue 2), fill_two, around. eexists. eexists.
  split; [reflexivity|]. split; [vm_compute; reflexivity|].
  split; [vm_compute; reflexivity|]. split; [reflexivity|]. split; [vm_compute; reflexivity|].
  split; [vm_compute; reflexivity|].
  intros k s.
  do 19 (destruct k as [|k]; [intro E; vm_compute in E; injection E as <-; vm_compute; discriminate|]).
  intro E. replace (firstn _ around) with around in E
    by (symmetry; apply firstn_all2; vm_compute; lia).
  vm_compute in E; injection E as <-; vm_compute; discriminate.
Qed.

Print Assumptions C70_empty_alone.
Print Assumptions C70_empty_means_empty_refuted.
