(** * Facts about the ring of nodes behind the message queue *)
From Coq Require Import List ZArith Bool Lia Arith.
From Verif Require Import MsgQueue Spec_Queue.
Import ListNotations.

Lemma msg_eta : forall m,
  mkMsg (m_file m) (m_line m) (m_func m) (m_type m) (m_subsys m) (m_text m) (m_met m) (m_time m) = m.
Proof. intros []; reflexivity. Qed.

Lemma read_fields_eq : forall n, read_fields n = n_msg n.
Proof. intros. unfold read_fields. apply msg_eta. Qed.

Lemma write_fields_eq : forall n m, write_fields n m = mkNode m (n_next n).
Proof. intros. unfold write_fields. now rewrite msg_eta. Qed.

Lemma ptr_eqb_spec : forall a b, reflect (a = b) (ptr_eqb a b).
Proof.
  intros [i|] [j|]; cbn [ptr_eqb]; try (constructor; congruence).
  destruct (Nat.eqb_spec i j); constructor; congruence.
Qed.

Lemma set_nth_length : forall {A} (l : list A) i x, length (set_nth l i x) = length l.
Proof. induction l; destruct i; cbn; intros; auto. Qed.

Lemma set_nth_same : forall {A} (l : list A) i x, i < length l -> nth_error (set_nth l i x) i = Some x.
Proof.
  induction l; destruct i; cbn; intros; try lia; auto. apply IHl; lia.
Qed.

Lemma set_nth_other : forall {A} (l : list A) i j x, i <> j ->
  nth_error (set_nth l i x) j = nth_error l j.
Proof.
  induction l; destruct i, j; cbn; intros; auto; try congruence.
Qed.

(** The nodes are linked in a ring. *)
Definition ring (mem : list Node) : Prop :=
  2 <= length mem /\
  forall i n, nth_error mem i = Some n -> n_next n = Some (S i mod length mem).

(** Starting at [h] the ring holds the messages [items]. *)
Definition holds (mem : list Node) (h : nat) (items : list Msg) : Prop :=
  forall k m, nth_error items k = Some m ->
    exists n, nth_error mem ((h + k) mod length mem) = Some n /\ n_msg n = m.

Lemma ring_get : forall mem i, ring mem -> i < length mem ->
  exists n, nth_error mem i = Some n /\ n_next n = Some (S i mod length mem).
Proof.
  intros mem i [_ R] Hi.
  destruct (nth_error mem i) as [n|] eqn:E.
  - exists n. split; auto.
  - apply nth_error_None in E. lia.
Qed.

Lemma ring_store : forall mem i n m, ring mem -> nth_error mem i = Some n ->
  ring (set_nth mem i (mkNode m (n_next n))).
Proof.
  intros mem i n m [L R] E. split; rewrite set_nth_length; [exact L|].
  intros j n' E'. destruct (Nat.eq_dec i j) as [<-|D].
  - rewrite set_nth_same in E' by (apply nth_error_Some; congruence).
    inversion E'; subst. cbn [n_next]. now apply R.
  - rewrite set_nth_other in E' by assumption. now apply R.
Qed.

Lemma mod_small_add : forall h k N, h < N -> k < N ->
  (h + k) mod N = if h + k <? N then h + k else h + k - N.
Proof.
  intros. destruct (Nat.ltb_spec (h + k) N).
  - now apply Nat.mod_small.
  - replace (h + k) with ((h + k - N) + 1 * N) at 1 by lia.
    rewrite Nat.mod_add by lia. apply Nat.mod_small. lia.
Qed.

Lemma mod_inj : forall h a b N, h < N -> a < N -> b < N ->
  (h + a) mod N = (h + b) mod N -> a = b.
Proof.
  intros h a b N H Ha Hb. rewrite !mod_small_add by assumption.
  destruct (Nat.ltb_spec (h + a) N), (Nat.ltb_spec (h + b) N); lia.
Qed.

Lemma succ_mod : forall a N, 0 < N -> S (a mod N) mod N = S a mod N.
Proof.
  intros. rewrite <- (Nat.add_1_r (a mod N)), <- (Nat.add_1_r a).
  apply Nat.add_mod_idemp_l. lia.
Qed.

Lemma holds_store : forall mem h items i m n, h < length mem -> length items < length mem ->
  i = (h + length items) mod length mem ->
  nth_error mem i = Some n ->
  holds mem h items -> holds (set_nth mem i (mkNode m (n_next n))) h (items ++ [m]).
Proof.
  intros mem h items i m n Hh Hl Ei E H k m' Ek. rewrite set_nth_length.
  assert (Hi : i < length mem) by (apply nth_error_Some; congruence).
  destruct (lt_dec k (length items)) as [Hk|Hk].
  - rewrite nth_error_app1 in Ek by assumption.
    rewrite set_nth_other; [now apply H|].
    intro X. rewrite Ei in X. apply mod_inj in X; lia.
  - assert (k = length items).
    { assert (k < length (items ++ [m])) by (apply nth_error_Some; congruence).
      rewrite app_length in H0; cbn in H0; lia. }
    subst k. rewrite nth_error_app2, Nat.sub_diag in Ek by lia. cbn in Ek.
    inversion Ek; subst m'. rewrite <- Ei, set_nth_same by assumption.
    eexists; split; [reflexivity|]. reflexivity.
Qed.

Lemma holds_tail : forall mem h m items, 0 < length mem ->
  holds mem h (m :: items) -> holds mem (S h mod length mem) items.
Proof.
  intros mem h m items L H k m' Ek.
  replace ((S h mod length mem + k) mod length mem) with ((h + S k) mod length mem).
  - now apply H.
  - rewrite Nat.add_mod_idemp_l by lia. f_equal. lia.
Qed.

Lemma holds_head : forall mem h m items, h < length mem ->
  holds mem h (m :: items) -> exists n, nth_error mem h = Some n /\ n_msg n = m.
Proof.
  intros mem h m items L H. destruct (H 0 m eq_refl) as (n & E & M).
  rewrite Nat.add_0_r, Nat.mod_small in E by assumption. eauto.
Qed.

Lemma fresh_length : forall n, length (fresh_mem n) = n.
Proof. intros. unfold fresh_mem. now rewrite map_length, seq_length. Qed.

Lemma fresh_ring : forall n, 2 <= n -> ring (fresh_mem n).
Proof.
  intros n L. split; rewrite fresh_length; [exact L|].
  intros i x E.
  assert (Hi : i < n) by (rewrite <- (fresh_length n); apply nth_error_Some; congruence).
  unfold fresh_mem in E. rewrite nth_error_map in E.
  rewrite nth_error_nth' with (d := 0) in E by now rewrite seq_length.
  rewrite seq_nth in E by assumption. cbn [option_map] in E. rewrite Nat.add_0_l in E.
  assert (E' : x = mkNode msg0 (Some (if Nat.eqb (S i) n then 0 else S i))) by congruence.
  rewrite E'. cbn [n_next]. f_equal. clear E E'.
  destruct (Nat.eqb_spec (S i) n) as [->|D].
  - rewrite Nat.mod_same by lia. reflexivity.
  - rewrite Nat.mod_small by lia. reflexivity.
Qed.

Lemma holds_nil : forall mem h, holds mem h [].
Proof. intros mem h k m E. now destruct k. Qed.

(** The queue [q] stands for the abstract queue [a]. *)
Record rep (q : Queue) (a : AQueue) : Prop := {
  rep_ring  : ring (q_mem q);
  rep_asize : q_asize q = Z.of_nat (length (q_mem q));
  rep_cap   : a_cap a = (Z.of_nat (length (q_mem q)) - 1)%Z;
  rep_len   : length (a_items a) < length (q_mem q);
  rep_where : exists h, q_head q = Some h /\ h < length (q_mem q) /\
                q_tail q = Some ((h + length (a_items a)) mod length (q_mem q)) /\
                holds (q_mem q) h (a_items a);
  rep_lock  : q_lock q = false;
  rep_fails : q_fails q = 0%Z;
  rep_over  : q_over q = a_lost a;
  rep_block : q_block q = a_blocking a }.

Lemma rep_size : forall q a, rep q a -> get_size q = Z.of_nat (length (a_items a)).
Proof.
  intros q a R. destruct (rep_where _ _ R) as (h & Eh & Hh & Et & _).
  pose proof (rep_len _ _ R) as L. destruct (rep_ring _ _ R) as [N2 _].
  unfold get_size. rewrite Eh, Et, (rep_asize _ _ R).
  destruct (Z.eqb_spec (Z.of_nat (length (q_mem q))) 0); [lia|].
  rewrite mod_small_add by assumption.
  destruct (Nat.ltb_spec (h + length (a_items a)) (length (q_mem q))).
  - destruct (Nat.leb_spec h (h + length (a_items a))); lia.
  - destruct (Nat.leb_spec h (h + length (a_items a) - length (q_mem q))); lia.
Qed.

Lemma rep_empty : forall q a, rep q a ->
  is_empty q = match a_items a with [] => true | _ => false end.
Proof.
  intros q a R. destruct (rep_where _ _ R) as (h & Eh & Hh & Et & _).
  pose proof (rep_len _ _ R) as L. destruct (rep_ring _ _ R) as [N2 _].
  unfold is_empty. rewrite Eh, Et. cbn [ptr_eqb].
  rewrite mod_small_add by assumption.
  destruct (a_items a) as [|m l] eqn:E.
  - cbn [length] in *. rewrite Nat.add_0_r.
    destruct (Nat.ltb_spec h (length (q_mem q))); [apply Nat.eqb_refl | lia].
  - cbn [length] in *. apply Nat.eqb_neq.
    destruct (Nat.ltb_spec (h + S (length l)) (length (q_mem q))); lia.
Qed.

Lemma rep_seen : forall q a x, rep q a -> seen q x = a_seen a x.
Proof.
  intros q a x R. unfold seen, a_seen.
  rewrite (rep_size _ _ R), (rep_empty _ _ R), (rep_fails _ _ R), (rep_over _ _ R), (rep_block _ _ R).
  unfold get_capacity. rewrite (rep_asize _ _ R), (rep_cap _ _ R).
  destruct (rep_ring _ _ R) as [N2 _].
  destruct (Z.eqb_spec (Z.of_nat (length (q_mem q))) 0); [lia | reflexivity].
Qed.

Local Open Scope Z_scope.

Definition a_insert (a : AQueue) (m : Msg) : AQueue := fst (a_step a (OInsert m)).

Lemma newest_all : forall n l, (Z.of_nat (length l) <= n)%Z -> newest n l = l.
Proof. intros. unfold newest. now replace (length l - Z.to_nat n)%nat with 0%nat by lia. Qed.

Lemma newest_drop1 : forall n m l, (0 <= n)%Z -> (Z.of_nat (length (m :: l)) = n + 1)%Z ->
  newest n (m :: l) = l.
Proof.
  intros. unfold newest. replace (length (m :: l) - Z.to_nat n)%nat with 1%nat by lia. reflexivity.
Qed.

(** One insertion with the mutex held. *)
Lemma insert_locked_rep : forall q a m, rep q a -> q_over q <= int_max ->
  (int_max < a_lost (a_insert a m) -> insert_locked (set_lock q true) m = UB) /\
  (a_lost (a_insert a m) <= int_max ->
   exists q', insert_locked (set_lock q true) m = Ret q' /\ rep (set_lock q' false) (a_insert a m)).
Proof.
  intros q a m R B. destruct (rep_where _ _ R) as (h & Eh & Hh & Et & H).
  pose proof (rep_len _ _ R) as L. pose proof (rep_ring _ _ R) as RR. destruct RR as [N2 RN].
  pose proof (rep_cap _ _ R) as C. pose proof (rep_over _ _ R) as V.
  set (N := length (q_mem q)) in *. set (t := ((h + length (a_items a)) mod N)%nat) in *.
  assert (Ht : (t < N)%nat) by (apply Nat.mod_upper_bound; lia).
  destruct (ring_get (q_mem q) t (conj N2 RN) Ht) as (nt & Ent & Nt). fold N in Nt.
  set (mem' := set_nth (q_mem q) t (mkNode m (n_next nt))).
  assert (R' : ring mem') by (apply ring_store; [split; assumption | assumption]).
  assert (L' : length mem' = N) by apply set_nth_length.
  assert (H' : holds mem' h (a_items a ++ [m])) by (apply holds_store; auto).
  assert (En' : nth_error mem' t = Some (mkNode m (n_next nt))) by (apply set_nth_same; auto).
  assert (St : (S t mod N = (h + S (length (a_items a))) mod N)%nat).
  { unfold t. rewrite succ_mod by lia. f_equal. lia. }
  assert (Cn : Z.to_nat (a_cap a) = (N - 1)%nat) by lia.
  unfold a_insert, a_step; cbn [fst a_lost a_items a_cap a_blocking].
  (* the computation up to the full test *)
  assert (F : insert_locked (set_lock q true) m =
    let! q := (if ptr_eqb (n_next nt) (Some h) then
       let! hd := deref mem' (Some h) in
       let! ov := int_inc (q_over q) in
       Ret (mkQueue mem' (q_asize q) (Some t) (n_next hd) true (q_block q) (q_fails q) ov)
     else Ret (mkQueue mem' (q_asize q) (Some t) (Some h) true (q_block q) (q_fails q) (q_over q))) in
    let! n := deref (q_mem q) (q_tail q) in
    Ret (mkQueue (q_mem q) (q_asize q) (n_next n) (q_head q) (q_lock q) (q_block q)
               (q_fails q) (q_over q))).
  { unfold insert_locked, set_lock, is_full.
    cbn [q_mem q_tail q_head q_asize q_lock q_block q_fails q_over].
    rewrite Et, Eh. unfold deref at 1. rewrite Ent. cbn [bindO].
    rewrite write_fields_eq. cbn [store]. fold mem'.
    unfold deref at 1. rewrite En'. cbn [bindO n_next].
    destruct (ptr_eqb (n_next nt) (Some h)); reflexivity. }
  rewrite F. clear F. rewrite Nt.
  destruct (ptr_eqb_spec (Some (S t mod N)%nat) (Some h)) as [Full|NFull].
  - (* the queue was full *)
    injection Full as Full.
    assert (LN : length (a_items a) = (N - 1)%nat).
    { destruct (Nat.eq_dec (S (length (a_items a))) N); [lia|]. exfalso.
      rewrite St, mod_small_add in Full by lia.
      destruct (Nat.ltb_spec (h + S (length (a_items a))) N); lia. }
    destruct (a_items a) as [|m0 its] eqn:EI; [cbn in LN; lia|].
    cbn [app length] in *.
    assert (NW : newest (a_cap a) (m0 :: its ++ [m]) = its ++ [m]).
    { apply newest_drop1; [lia|]. cbn [length]. rewrite app_length. cbn [length]. lia. }
    assert (LO : lost (a_cap a) (m0 :: its ++ [m]) = 1%Z).
    { unfold lost. cbn [length]. rewrite app_length. cbn [length]. lia. }
    rewrite NW, LO.
    destruct (ring_get mem' h R' ltac:(lia)) as (nh & Enh & Nh). rewrite L' in Nh.
    assert (Dh : deref mem' (Some h) = Ret nh) by (unfold deref; now rewrite Enh).
    rewrite Dh. cbn [bindO]. unfold int_inc. rewrite V.
    destruct (Z.leb_spec int_max (a_lost a)).
    + split; [reflexivity | lia].
    + split; [lia | intros _]. cbn [bindO q_mem q_tail q_head q_asize q_lock q_block q_fails q_over].
      unfold deref. rewrite En'. cbn [bindO n_next]. eexists; split; [reflexivity|].
      unfold set_lock. constructor;
        cbn [q_mem q_tail q_head q_asize q_lock q_block q_fails q_over a_cap a_items a_lost a_blocking]; auto.
      * rewrite L'. apply (rep_asize _ _ R).
      * rewrite L'. exact C.
      * rewrite L', app_length. cbn [length]. lia.
      * exists (S h mod N)%nat. rewrite L', Nh, Nt. split; [reflexivity|].
        split; [apply Nat.mod_upper_bound; lia|]. split.
        { f_equal. rewrite St, app_length. cbn [length].
          rewrite Nat.add_mod_idemp_l by lia. f_equal. lia. }
        rewrite <- L'. apply holds_tail with (m := m0); [lia | exact H'].
      * apply (rep_fails _ _ R).
      * apply (rep_block _ _ R).
  - (* room left *)
    assert (LN : (length (a_items a) < N - 1)%nat).
    { destruct (Nat.eq_dec (length (a_items a)) (N - 1)); [|lia]. exfalso. apply NFull.
      f_equal. rewrite St. replace (h + S (length (a_items a)))%nat with (h + 1 * N)%nat by lia.
      rewrite Nat.mod_add by lia. now apply Nat.mod_small. }
    assert (LO : lost (a_cap a) (a_items a ++ [m]) = 0%Z).
    { unfold lost. rewrite app_length. cbn [length]. lia. }
    rewrite LO, newest_all by (rewrite app_length; cbn [length]; lia).
    cbn [bindO q_mem q_tail q_head q_asize q_lock q_block q_fails q_over].
    unfold deref. rewrite En'. cbn [bindO n_next]. split; [lia | intros _].
    eexists; split; [reflexivity|].
    unfold set_lock. constructor;
      cbn [q_mem q_tail q_head q_asize q_lock q_block q_fails q_over a_cap a_items a_lost a_blocking]; auto.
    + rewrite L'. apply (rep_asize _ _ R).
    + rewrite L'. exact C.
    + rewrite L', app_length. cbn [length]. lia.
    + exists h. rewrite L', Nt. split; [reflexivity|]. split; [assumption|]. split; [|exact H'].
      f_equal. rewrite St, app_length. cbn [length]. f_equal. lia.
    + apply (rep_fails _ _ R).
    + lia.
    + apply (rep_block _ _ R).
Qed.

Lemma insert_rep : forall q a m, rep q a -> q_over q <= int_max ->
  (int_max < a_lost (a_insert a m) -> insert_msg q m = UB) /\
  (a_lost (a_insert a m) <= int_max ->
   exists q', insert_msg q m = Ret q' /\ rep q' (a_insert a m)).
Proof.
  intros q a m R B. destruct (insert_locked_rep q a m R B) as [U S].
  assert (E : insert_msg q m = let! q := insert_locked (set_lock q true) m in Ret (set_lock q false)).
  { unfold insert_msg, lock. rewrite (rep_lock _ _ R). now destruct (q_block q). }
  rewrite E. split.
  - intro X. now rewrite (U X).
  - intro X. destruct (S X) as (q' & -> & R'). cbn [bindO]. eauto.
Qed.

Lemma remove_rep : forall q a, rep q a ->
  exists q', remove_msg q = Ret (q', snd (a_step a ORemove)) /\ rep q' (fst (a_step a ORemove)).
Proof.
  intros q a R. unfold remove_msg. rewrite (rep_empty _ _ R).
  destruct (a_items a) as [|m its] eqn:EI; cbn [a_step]; rewrite EI; cbn [fst snd].
  - eauto.
  - unfold lock. rewrite (rep_lock _ _ R). cbn [bindO].
    destruct (rep_where _ _ R) as (h & Eh & Hh & Et & H). rewrite EI in *.
    unfold set_lock at 1 2. cbn [q_mem q_head]. rewrite Eh.
    destruct (holds_head _ _ _ _ Hh H) as (n & En & Mn).
    cbn [deref]. rewrite En. cbn [bindO]. rewrite read_fields_eq, Mn.
    eexists; split; [reflexivity|].
    destruct (rep_ring _ _ R) as [N2 RN]. pose proof (rep_len _ _ R) as L. rewrite EI in L.
    cbn [length] in *. unfold set_lock.
    constructor;
      cbn [q_mem q_tail q_head q_asize q_lock q_block q_fails q_over a_cap a_items a_lost a_blocking];
      try apply R; try lia; auto.
    exists (S h mod length (q_mem q))%nat. split; [now apply RN|].
    split; [apply Nat.mod_upper_bound; lia|]. split; [|eapply holds_tail; [lia | exact H]].
    rewrite Et. f_equal. rewrite Nat.add_mod_idemp_l by lia. f_equal. lia.
Qed.

(** Putting a whole list in. *)
Fixpoint a_inserts (a : AQueue) (l : list Msg) : AQueue :=
  match l with [] => a | m :: r => a_inserts (a_insert a m) r end.

Lemma lost_nonneg : forall n l, 0 <= lost n l.
Proof. intros. unfold lost. lia. Qed.

Lemma a_insert_lost : forall a m, a_lost a <= a_lost (a_insert a m).
Proof.
  intros. unfold a_insert, a_step. cbn [fst a_lost].
  pose proof (lost_nonneg (a_cap a) (a_items a ++ [m])). lia.
Qed.

Lemma a_inserts_lost : forall l a, a_lost a <= a_lost (a_inserts a l).
Proof.
  induction l; cbn [a_inserts]; intros; [lia|].
  pose proof (a_insert_lost a0 a). specialize (IHl (a_insert a0 a)). lia.
Qed.

Lemma drain_rep : forall items fuel t at_ q a,
  rep t at_ -> a_items at_ = items -> (length items < fuel)%nat ->
  rep q a -> q_over q <= int_max ->
  (int_max < a_lost (a_inserts a items) -> drain fuel t q = UB) /\
  (a_lost (a_inserts a items) <= int_max ->
   exists q', drain fuel t q = Ret q' /\ rep q' (a_inserts a items)).
Proof.
  induction items as [|m its IH]; intros fuel t at_ q a Rt Ei Hf R B.
  - destruct fuel as [|k]; [cbn in Hf; lia|]. cbn [drain a_inserts].
    destruct (remove_rep t at_ Rt) as (t' & -> & Rt'). cbn [a_step]. rewrite Ei. cbn [snd bindO].
    split; [intro X; rewrite <- (rep_over _ _ R) in X; lia | eauto].
  - destruct fuel as [|k]; [cbn in Hf; lia|]. cbn [drain a_inserts].
    destruct (remove_rep t at_ Rt) as (t' & -> & Rt'). cbn [a_step] in *. rewrite Ei in *.
    cbn [snd fst bindO] in *.
    destruct (insert_rep q a m R B) as [U S].
    destruct (Z_le_gt_dec (a_lost (a_insert a m)) int_max) as [Le|Gt].
    + destruct (S Le) as (q' & -> & R'). cbn [bindO].
      apply (IH k t' _ q' (a_insert a m) Rt' eq_refl); auto.
      * cbn [length] in Hf. lia.
      * rewrite (rep_over _ _ R'). exact Le.
    + rewrite U by lia. cbn [bindO]. split; [reflexivity|].
      pose proof (a_inserts_lost its (a_insert a m)). lia.
Qed.

Lemma skipn_S : forall {A} k (l : list A), skipn (1 + k) l = skipn 1 (skipn k l).
Proof.
  induction k as [|k IH]; intros l; [reflexivity|].
  destruct l as [|x l]; [reflexivity|].
  change (skipn (1 + S k) (x :: l)) with (skipn (1 + k) l).
  change (skipn (S k) (x :: l)) with (skipn k l). apply IH.
Qed.

Lemma newest_app : forall n l m, 0 <= n ->
  newest n (newest n l ++ [m]) = newest n (l ++ [m]).
Proof.
  intros n l m Hn. unfold newest. rewrite !app_length, skipn_length. cbn [length].
  destruct (le_lt_dec (length l) (Z.to_nat n)).
  - replace (length l - Z.to_nat n)%nat with 0%nat by lia. cbn [skipn].
    now rewrite Nat.sub_0_r.
  - set (k := (length l - Z.to_nat n)%nat).
    replace (length l - k + 1 - Z.to_nat n)%nat with 1%nat by lia.
    replace (length l + 1 - Z.to_nat n)%nat with (k + 1)%nat by lia.
    assert (X : skipn k (l ++ [m]) = skipn k l ++ [m]).
    { rewrite skipn_app. replace (k - length l)%nat with 0%nat by lia. reflexivity. }
    rewrite <- X. symmetry. rewrite Nat.add_comm.
    apply skipn_S.
Qed.

Lemma newest_length : forall n l, 0 <= n ->
  Z.of_nat (length (newest n l)) = Z.min n (Z.of_nat (length l)).
Proof. intros. unfold newest. rewrite skipn_length. lia. Qed.

Lemma a_inserts_eq : forall l a pre lo, 0 <= a_cap a ->
  a_items a = newest (a_cap a) pre -> a_lost a = lo + lost (a_cap a) pre ->
  a_inserts a l = mkA (a_cap a) (newest (a_cap a) (pre ++ l)) (lo + lost (a_cap a) (pre ++ l)) (a_blocking a).
Proof.
  induction l as [|m r IH]; cbn [a_inserts]; intros a pre lo C Ei El.
  - rewrite app_nil_r, <- Ei, <- El. now destruct a.
  - rewrite (IH _ (pre ++ [m]) lo).
    + unfold a_insert, a_step; cbn [fst a_cap a_blocking]. now rewrite <- !app_assoc.
    + exact C.
    + unfold a_insert, a_step; cbn [fst a_items a_cap]. rewrite Ei. now apply newest_app.
    + unfold a_insert, a_step; cbn [fst a_lost a_cap]. rewrite El, Ei.
      unfold lost. rewrite !app_length, Nat2Z.inj_add, newest_length by assumption.
      cbn [length]. lia.
Qed.

Lemma fresh_rep : forall n bl fails over, (2 <= n)%nat -> fails = 0 ->
  rep (mkQueue (fresh_mem n) (Z.of_nat n) (Some 0%nat) (Some 0%nat) false bl fails over)
      (mkA (Z.of_nat n - 1) [] over bl).
Proof.
  intros n bl fails over N2 ->.
  constructor;
    cbn [q_mem q_tail q_head q_asize q_lock q_block q_fails q_over a_cap a_items a_lost a_blocking];
    rewrite ?fresh_length; auto.
  - now apply fresh_ring.
  - cbn [length]. lia.
  - exists 0%nat. cbn [length]. rewrite Nat.add_0_r, Nat.mod_0_l by lia.
    repeat split; auto; try lia. apply holds_nil.
Qed.

(** A resize. *)
Lemma init_rep : forall q a n b, rep q a -> q_over q <= int_max -> size_ok n ->
  let a' := fst (a_step a (OInit n b)) in
  (int_max < a_lost a' -> initialize q n b = UB) /\
  (a_lost a' <= int_max -> exists q', initialize q n b = Ret q' /\ rep q' a').
Proof.
  intros q a n b R B Hn a'. unfold a', a_step. cbn [fst a_lost].
  destruct (rep_ring _ _ R) as [N2 RN]. pose proof (rep_len _ _ R) as L.
  pose proof (rep_cap _ _ R) as C. pose proof (rep_asize _ _ R) as AS.
  unfold initialize, realloc_queue. cbn [q_asize].
  destruct (Z.eqb_spec (q_asize q) 0); [lia|].
  unfold size_ok in Hn. unfold alloc_size, int_inc.
  destruct (Z.leb_spec int_max n); [lia|]. cbn [bindO].
  destruct (Z.eqb_spec (Z.max (n + 1) 2) (q_asize q)) as [Same|Diff].
  - assert (EC : Z.max n 1 = a_cap a) by lia. rewrite EC.
    assert (LO : lost (a_cap a) (a_items a) = 0) by (unfold lost; lia).
    rewrite LO, newest_all by lia. rewrite Z.add_0_r.
    split; [rewrite <- (rep_over _ _ R); lia | intros _].
    eexists; split; [reflexivity|].
    destruct R as [R1 R2 R3 R4 R5 R6 R7 R8 R9].
    constructor;
      cbn [q_mem q_tail q_head q_asize q_lock q_block q_fails q_over a_cap a_items a_lost a_blocking]; auto.
  - unfold alloc_queue, alloc_size, int_inc.
    cbn [q_asize q_mem q_tail q_head q_lock q_block q_fails q_over clone_queue].
    destruct (Z.leb_spec int_max n); [lia|]. cbn [bindO].
    destruct (Z.eqb_spec (Z.max (n + 1) 2) 0); [lia|]. cbn [bindO].
    rewrite (rep_lock _ _ R).
    set (c := Z.max n 1).
    assert (EN : Z.max (n + 1) 2 = Z.of_nat (Z.to_nat (Z.max (n + 1) 2))) by lia.
    rewrite EN, Nat2Z.id. set (k := Z.to_nat (Z.max (n + 1) 2)) in *.
    assert (Rf := fresh_rep k b (q_fails q) (q_over q) ltac:(lia) (rep_fails _ _ R)).
    assert (Rt : rep (mkQueue (q_mem q) (q_asize q) (q_tail q) (q_head q) false b (q_fails q) (q_over q))
                     (mkA (a_cap a) (a_items a) (a_lost a) b)).
    { destruct R as [R1 R2 R3 R4 R5 R6 R7 R8 R9].
      constructor;
        cbn [q_mem q_tail q_head q_asize q_lock q_block q_fails q_over a_cap a_items a_lost a_blocking]; auto. }
    destruct (drain_rep (a_items a) (S (length (q_mem q))) _ _ _ _ Rt eq_refl ltac:(lia) Rf B) as [U S].
    assert (EQ : a_inserts (mkA (Z.of_nat k - 1) [] (q_over q) b) (a_items a) =
      mkA c (newest c (a_items a)) (a_lost a + lost c (a_items a)) b).
    { rewrite (a_inserts_eq _ _ [] (a_lost a)); cbn [a_cap a_items a_lost a_blocking app].
      - now replace (Z.of_nat k - 1) with c by lia.
      - lia.
      - unfold newest. now rewrite skipn_nil.
      - rewrite (rep_over _ _ R). unfold lost. cbn [length]. lia. }
    rewrite EQ in *. cbn [a_lost] in *. auto.
Qed.

Lemma a_step_lost : forall a o, a_lost a <= a_lost (fst (a_step a o)).
Proof.
  intros a [m| |n b|b]; cbn [a_step fst a_lost].
  - pose proof (lost_nonneg (a_cap a) (a_items a ++ [m])). lia.
  - destruct (a_items a); cbn [fst a_lost]; lia.
  - pose proof (lost_nonneg (Z.max n 1) (a_items a)). lia.
  - lia.
Qed.

Lemma a_run_lost : forall ops a, a_lost a <= a_lost (fst (a_run a ops)).
Proof.
  induction ops as [|o r IH]; cbn [a_run]; intros a; [cbn; lia|].
  pose proof (a_step_lost a o). destruct (a_step a o) as [a' x]. cbn [fst] in *.
  specialize (IH a'). destruct (a_run a' r). cbn [fst] in *. lia.
Qed.

Lemma op_rep : forall q a o, rep q a -> q_over q <= int_max -> op_ok o ->
  let a' := fst (a_step a o) in let x := snd (a_step a o) in
  (int_max < a_lost a' -> do_op q o = UB) /\
  (a_lost a' <= int_max -> exists q', do_op q o = Ret (q', x) /\ rep q' a').
Proof.
  intros q a o R B OK a' x. unfold a', x. clear a' x. destruct o as [m| |n b|b].
  - destruct (insert_rep q a m R B) as [U S]. fold (a_insert a m).
    cbn [do_op]. split; intro X.
    + now rewrite U.
    + destruct (S X) as (q' & -> & R'). cbn [bindO a_step snd]. eauto.
  - destruct (remove_rep q a R) as (q' & E & R'). cbn [do_op]. split; intro X; [|eauto].
    exfalso. assert (a_lost (fst (a_step a ORemove)) = a_lost a)
      by (cbn [a_step]; destruct (a_items a); reflexivity).
    rewrite (rep_over _ _ R) in B. lia.
  - destruct (init_rep q a n b R B OK) as [U S]. cbn [do_op]. split; intro X.
    + now rewrite U.
    + destruct (S X) as (q' & -> & R'). cbn [bindO a_step snd]. eauto.
  - cbn [do_op a_step fst snd a_lost]. rewrite <- (rep_over _ _ R).
    split; [lia | intros _]. eexists; split; [reflexivity|].
    destruct R as [R1 R2 R3 R4 R5 R6 R7 R8 R9]. unfold set_blocking.
    constructor;
      cbn [q_mem q_tail q_head q_asize q_lock q_block q_fails q_over a_cap a_items a_lost a_blocking]; auto.
Qed.

Lemma run_rep : forall ops q a, rep q a -> q_over q <= int_max -> Forall op_ok ops ->
  let a' := fst (a_run a ops) in let ss := snd (a_run a ops) in
  (int_max < a_lost a' -> run_ops q ops = UB) /\
  (a_lost a' <= int_max -> exists q', run_ops q ops = Ret (q', ss) /\ rep q' a').
Proof.
  induction ops as [|o r IH]; cbn [run_ops a_run]; intros q a R B OK.
  - cbn [fst snd]. rewrite <- (rep_over _ _ R). split; [lia | eauto].
  - inversion OK as [|? ? O1 O2]; subst.
    destruct (op_rep q a o R B O1) as [U S]. pose proof (a_step_lost a o) as M.
    destruct (a_step a o) as [a1 x]. cbn [fst snd] in *.
    destruct (Z_le_gt_dec (a_lost a1) int_max) as [Le|Gt].
    + destruct (S Le) as (q1 & -> & R1). cbn [bindO].
      assert (B1 : q_over q1 <= int_max) by (rewrite (rep_over _ _ R1); exact Le).
      destruct (IH q1 a1 R1 B1 O2) as [U' S']. rewrite (rep_seen _ _ x R1).
      destruct (a_run a1 r) as [a2 ss]. cbn [fst snd] in *. split; intro X.
      * now rewrite U'.
      * destruct (S' X) as (q2 & -> & R2). cbn [bindO]. eauto.
    + rewrite U by lia. pose proof (a_run_lost r a1) as M'.
      destruct (a_run a1 r) as [a2 ss]. cbn [fst snd bindO] in *. split; [reflexivity | lia].
Qed.

Lemma make_rep : forall size b, size_ok size ->
  exists q, queue_make size b = Ret q /\ rep q (mkA (Z.max size 1) [] 0 b).
Proof.
  intros size b Hs. unfold queue_make, alloc_queue, alloc_size, int_inc. unfold size_ok in Hs.
  destruct (Z.leb_spec int_max size); [lia|]. cbn [bindO q_asize].
  destruct (Z.eqb_spec (Z.max (size + 1) 2) 0); [lia|].
  eexists; split; [reflexivity|]. cbn [q_lock q_block q_fails q_over].
  set (k := Z.to_nat (Z.max (size + 1) 2)).
  replace (Z.max (size + 1) 2) with (Z.of_nat k) by lia.
  replace (Z.max size 1) with (Z.of_nat k - 1) by lia. apply fresh_rep; [lia | reflexivity].
Qed.
