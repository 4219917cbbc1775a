(** C100-C105: jumper plugs and sockets. *)
From Coq Require Import List Arith Bool ZArith Lia.
From Verif Require Import Jumper Spec_Jumper.
Import ListNotations.
Local Open Scope Z_scope.

(** ** Basic facts *)

Lemma setn_same {A} (m : nat -> A) i v : setn m i v i = v.
Proof. unfold setn. now rewrite Nat.eqb_refl. Qed.
Lemma setn_other {A} (m : nat -> A) i v a : a <> i -> setn m i v a = m a.
Proof. unfold setn. intros. destruct (Nat.eqb_spec a i); congruence. Qed.

Lemma is_connected_spec s i p : is_connected s i p = true <-> holds s i p.
Proof.
  unfold is_connected, holds. destruct (k_plug (y_sock s i)) as [q|]; [|split; discriminate].
  rewrite Nat.eqb_eq. split; [intros ->; reflexivity|intros [= ->]; reflexivity].
Qed.

(** No other plug's socket. *)
Definition mine (p : nat) (k : socket) : Prop := k_plug k = None \/ k_plug k = Some p.

(** What update does to the plug and the sockets, in terms of those alone. *)
Definition onlyp (p : nat) (s s' : sys) : Prop :=
  (forall q, q <> p -> y_plug s' q = y_plug s q) /\
  g_list (y_plug s' p) = g_list (y_plug s p) /\
  (forall i, k_n0 (y_sock s' i) = k_n0 (y_sock s i) /\ k_n1 (y_sock s' i) = k_n1 (y_sock s i)) /\
  (forall i, y_sock s' i = y_sock s i \/
     mine p (y_sock s i) /\ mine p (y_sock s' i) /\
     (k_has (y_sock s' i) = true <-> k_plug (y_sock s' i) <> None)).

Lemma onlyp_plug p s g : g_list g = g_list (y_plug s p) -> onlyp p s (put_plug s p g).
Proof.
  intros E. split; [intros q Hq; cbn; now apply setn_other|]. split; [cbn; now rewrite setn_same|].
  split; [intros i; split; reflexivity|]. intros i. left. reflexivity.
Qed.

Lemma none_list g g' : g_list g = g_list g' -> none g = none g'.
Proof. unfold none. congruence. Qed.

Lemma get_socket_spec g a : get_socket g a =
  if (0 <=? a) && (a <? none g) then nth_error (g_list g) (Z.to_nat a) else None.
Proof.
  unfold get_socket. destruct (Z.ltb_spec a 0), (Z.leb_spec (none g) a), (Z.leb_spec 0 a), (Z.ltb_spec a (none g));
    cbn; try reflexivity; lia.
Qed.
Lemma get_socket_some g a : 0 <= a < none g -> exists i, get_socket g a = Some i /\ nth_error (g_list g) (Z.to_nat a) = Some i.
Proof.
  intros Ha. rewrite get_socket_spec. destruct (Z.leb_spec 0 a), (Z.ltb_spec a (none g)); try lia. cbn.
  destruct (nth_error (g_list g) (Z.to_nat a)) eqn:E; eauto.
  apply nth_error_None in E. unfold none in *. lia.
Qed.
Lemma get_socket_entry g a i : get_socket g a = Some i -> 0 <= a < none g /\ nth_error (g_list g) (Z.to_nat a) = Some i.
Proof.
  rewrite get_socket_spec. destruct (Z.leb_spec 0 a), (Z.ltb_spec a (none g)); cbn; intros; try discriminate.
  split; [lia|assumption].
Qed.
Lemma get_socket_none g a : get_socket g a = None -> ~ (0 <= a < none g).
Proof. intros H K. destruct (get_socket_some g a K) as (i & E & _). congruence. Qed.

(** ** The invariant *)

(** The plug's view: its active connection is the entry of the socket that holds
    it; only sockets of its list do. *)
Definition view_ok (s : sys) (p : nat) : Prop :=
  let g := y_plug s p in
  NoDup (g_list g) /\ 0 <= g_active g <= none g /\
  (forall a i, entry s p a i -> (holds s i p <-> g_active g = a)) /\
  (forall i, holds s i p -> In i (g_list g)).
Definition has_ok (s : sys) : Prop := forall i, k_has (y_sock s i) = true <-> k_plug (y_sock s i) <> None.
Definition all_ok (s : sys) : Prop := (forall p, view_ok s p) /\ has_ok s.

(** The same without the active connection: at most one entry, the one [a], holds
    the plug. *)
Definition held_at (s : sys) (p : nat) (a : Z) : Prop :=
  let g := y_plug s p in
  NoDup (g_list g) /\ 0 <= a <= none g /\
  (forall b i, entry s p b i -> (holds s i p <-> a = b)) /\
  (forall i, holds s i p -> In i (g_list g)).
Lemma view_held s p : view_ok s p <-> held_at s p (g_active (y_plug s p)).
Proof. reflexivity. Qed.

Lemma first_connected_spec s p l : forall z,
  match first_connected s p l z with
  | Some i => z <= i < z + Z.of_nat (length l) /\ exists k, nth_error l (Z.to_nat (i - z)) = Some k /\ holds s k p
  | None => forall k, In k l -> ~ holds s k p
  end.
Proof.
  induction l as [|k l IH]; intros z; cbn [first_connected].
  - intros k [].
  - destruct (is_connected s k p) eqn:E.
    + apply is_connected_spec in E. split; [cbn [length]; lia|]. exists k. rewrite Z.sub_diag. auto.
    + specialize (IH (z + 1)). destruct (first_connected s p l (z + 1)) as [i|].
      * destruct IH as (Hr & k' & Hk & Hh). split; [cbn [length]; lia|]. exists k'. split; [|exact Hh].
        replace (Z.to_nat (i - z)) with (S (Z.to_nat (i - (z + 1)))) by lia. exact Hk.
      * intros k' [<-|Hin]; [|now apply IH]. intros K. apply is_connected_spec in K. congruence.
Qed.

(** updateActiveConnection makes the view right. *)
Lemma update_active_held s p a : held_at s p a -> g_active (y_plug (update_active s p) p) = a.
Proof.
  intros (ND & Ha & He & Hl). unfold update_active. cbn [put_plug y_plug]. rewrite setn_same. cbn [with_active g_active].
  pose proof (first_connected_spec s p (g_list (y_plug s p)) 0) as F.
  destruct (first_connected s p (g_list (y_plug s p)) 0) as [i|].
  - destruct F as (Hr & k & Hk & Hh). rewrite Z.sub_0_r in Hk.
    assert (En : entry s p i k) by (split; [lia|exact Hk]). symmetry. now apply (He i k En).
  - destruct (Z.eq_dec a (none (y_plug s p))) as [|Hne]; [auto|].
    destruct (get_socket_some (y_plug s p) a) as (k & _ & Hk); [lia|].
    assert (En : entry s p a k) by (split; [lia|exact Hk]).
    exfalso. apply (F k); [eapply nth_error_In; exact Hk|]. now apply (He a k En).
Qed.
Lemma update_active_only s p : onlyp p s (update_active s p).
Proof. apply onlyp_plug. reflexivity. Qed.
Lemma update_active_rest s p : let g := y_plug s p in let g' := y_plug (update_active s p) p in
  g_node g' = g_node g /\ g_direct g' = g_direct g /\ g_disable g' = g_disable g /\ g_last g' = g_last g /\
  g_conn g' = g_conn g /\ g_disc g' = g_disc g /\ g_list g' = g_list g /\ y_sock (update_active s p) = y_sock s.
Proof. cbv zeta. unfold update_active. cbn [put_plug y_plug y_sock]. rewrite setn_same. repeat split. Qed.

Lemma held_same s s' p a : g_list (y_plug s' p) = g_list (y_plug s p) ->
  (forall i, k_plug (y_sock s' i) = k_plug (y_sock s i)) -> held_at s p a -> held_at s' p a.
Proof.
  intros El Ek (ND & Ha & He & Hl). unfold held_at. cbv zeta. rewrite El.
  split; [exact ND|]. split; [rewrite (none_list _ _ El); exact Ha|]. split.
  - intros b i (Hb & Hn). rewrite El in Hn. unfold holds. rewrite Ek. apply He. split; assumption.
  - intros i. unfold holds. rewrite Ek. apply Hl.
Qed.

Lemma entry_unique s p a b i : NoDup (g_list (y_plug s p)) -> entry s p a i -> entry s p b i -> a = b.
Proof.
  intros ND (Ha & Ea) (Hb & Eb).
  assert (Z.to_nat a = Z.to_nat b).
  { rewrite NoDup_nth_error in ND. apply ND; [|congruence]. apply nth_error_Some. congruence. }
  lia.
Qed.
Lemma entry_range s p a i : entry s p a i -> 0 <= a < none (y_plug s p).
Proof.
  intros (Ha & E). split; [exact Ha|]. assert (nth_error (g_list (y_plug s p)) (Z.to_nat a) <> None) by congruence.
  apply nth_error_Some in H. unfold none. lia.
Qed.
Lemma entry_get s p a i : entry s p a i -> get_socket (y_plug s p) a = Some i.
Proof.
  intros E. pose proof (entry_range _ _ _ _ E) as Hr. destruct (get_socket_some _ _ Hr) as (k & G & Hk).
  destruct E as (_ & E). congruence.
Qed.
Lemma has_entry s p a : 0 <= a < none (y_plug s p) -> exists i, entry s p a i.
Proof. intros H. destruct (get_socket_some _ _ H) as (i & _ & E). exists i. split; [lia|exact E]. Qed.

(** Taking the plug out. *)
Lemma disconnect_held s p a i : held_at s p a -> entry s p a i ->
  held_at (fst (request_disconnection s i p)) p (none (y_plug s p)).
Proof.
  intros H En. pose proof H as (ND & Ha & He & Hl).
  assert (Hh : holds s i p) by (apply (He a i En); reflexivity).
  unfold request_disconnection. cbn [fst]. rewrite (proj2 (is_connected_spec s i p) Hh).
  unfold held_at. cbn [put_sock y_plug]. split; [exact ND|]. split; [unfold none; lia|].
  assert (K : forall k, ~ holds (put_sock s i (with_plug (y_sock s i) None false)) k p).
  { intros k. unfold holds. cbn [put_sock y_sock]. destruct (Nat.eq_dec k i) as [->|Hne].
    - rewrite setn_same. cbn. discriminate.
    - rewrite setn_other by exact Hne. intros Hk. pose proof (Hl k Hk) as Hin.
      apply In_nth_error in Hin. destruct Hin as (b & Hb).
      assert (Eb : entry s p (Z.of_nat b) k) by (split; [lia|]; rewrite Nat2Z.id; exact Hb).
      apply (He _ _ Eb) in Hk. subst a. destruct En as (_ & En). rewrite Nat2Z.id in En. congruence. }
  split.
  - intros b k Eb. split; [intros Hk; exfalso; exact (K k Hk)|].
    intros <-. exfalso. pose proof (entry_range (put_sock s i (with_plug (y_sock s i) None false)) p _ _ Eb). cbn in H0. lia.
  - intros k Hk. exfalso. exact (K k Hk).
Qed.

(** Putting it in. *)
Lemma connect_held s p b i s' n : held_at s p (none (y_plug s p)) -> entry s p b i ->
  request_connection s i p = Some (s', n) -> held_at s' p b /\ n = k_n0 (y_sock s i) /\ free s i.
Proof.
  intros H En Hr. pose proof H as (ND & Ha & He & Hl). unfold request_connection in Hr.
  destruct (k_plug (y_sock s i)) eqn:Ek; [discriminate|]. inversion Hr; subst s' n. clear Hr.
  split; [|split; [reflexivity|exact Ek]].
  unfold held_at. cbn [put_sock y_plug]. split; [exact ND|]. split; [pose proof (entry_range _ _ _ _ En); lia|]. split.
  - intros c k Ec. unfold holds. cbn [put_sock y_sock].
    assert (Ec' : entry s p c k) by exact Ec.
    destruct (Nat.eq_dec k i) as [->|Hne].
    + rewrite setn_same. cbn. split; [intros _; exact (entry_unique s p b c i ND En Ec')|auto].
    + rewrite setn_other by exact Hne. split.
      * intros Hk. apply (He c k Ec') in Hk. pose proof (entry_range _ _ _ _ Ec'). lia.
      * intros <-. destruct En as (_ & E1). destruct Ec' as (_ & E2). congruence.
  - intros k. unfold holds. cbn [put_sock y_sock]. destruct (Nat.eq_dec k i) as [->|Hne].
    + intros _. eapply nth_error_In. apply En.
    + rewrite setn_other by exact Hne. apply Hl.
Qed.

(** ** The parts of update *)

(** The requests once the direct request has been looked at. *)
Definition direct_on (g : plug) : bool :=
  negb (g_disable g) && (0 <=? g_direct g) && (g_direct g <=? none g) && negb (g_direct g =? g_active g).
Definition asked_disc (g : plug) : Z := if direct_on g then g_active g else g_disc g.
Definition asked_conn (s : sys) (g : plug) : Z :=
  if direct_on g && negb (g_direct g =? none g)
  then match get_socket g (g_direct g) with
       | Some i => if k_has (y_sock s i) then g_conn g else g_direct g
       | None => g_conn g
       end
  else g_conn g.

Lemma process_direct_spec s p : let s' := process_direct s p in let g := y_plug s p in let g' := y_plug s' p in
  onlyp p s s' /\ y_sock s' = y_sock s /\ g_node g' = g_node g /\ g_active g' = g_active g /\ g_last g' = g_last g /\
  g_disc g' = asked_disc g /\ g_conn g' = asked_conn s g.
Proof.
  cbv zeta. unfold process_direct. set (g := y_plug s p). cbv zeta.
  set (g1 := if g_disable g then with_direct g (-99) else g).
  assert (E1 : g_list g1 = g_list g /\ g_node g1 = g_node g /\ g_active g1 = g_active g /\ g_last g1 = g_last g /\
    g_disc g1 = g_disc g /\ g_conn g1 = g_conn g) by (unfold g1; destruct (g_disable g); repeat split).
  destruct E1 as (El & En & Ea & Ela & Ed & Ec).
  assert (On : ((0 <=? g_direct g1) && (g_direct g1 <=? none g1) && negb (g_direct g1 =? g_active g1))%bool = direct_on g).
  { unfold direct_on, g1. destruct (g_disable g); [|reflexivity]. cbn [with_direct g_direct]. reflexivity. }
  rewrite On. unfold asked_disc, asked_conn.
  destruct (direct_on g) eqn:Don.
  2:{ cbn [andb]. split; [apply onlyp_plug; exact El|]. cbn [put_plug y_plug y_sock]. rewrite setn_same. auto 10. }
  assert (Dd : g_direct g1 = g_direct g).
  { unfold g1. unfold direct_on in Don. destruct (g_disable g); [discriminate|reflexivity]. }
  cbn [with_disc g_direct]. rewrite Dd. change (none (with_disc g1 (g_active g1))) with (none g1).
  rewrite (none_list g1 g El). cbn [andb].
  assert (Gs : forall x, get_socket (with_disc g1 x) (g_direct g) = get_socket g (g_direct g)).
  { intros x. unfold get_socket. change (none (with_disc g1 x)) with (none g1). rewrite (none_list g1 g El).
    cbn [with_disc g_list]. rewrite El. reflexivity. }
  destruct (g_direct g =? none g); cbn [negb].
  - split; [apply onlyp_plug; exact El|]. cbn [put_plug y_plug y_sock]. rewrite setn_same. cbn. auto 10.
  - rewrite Gs. destruct (get_socket g (g_direct g)) as [i|].
    + destruct (k_has (y_sock s i)); (split; [apply onlyp_plug; exact El|]);
        cbn [put_plug y_plug y_sock]; rewrite setn_same; cbn; auto 10.
    + split; [apply onlyp_plug; exact El|]. cbn [put_plug y_plug y_sock]. rewrite setn_same. cbn. auto 10.
Qed.


Lemma onlyp_trans p s s' s'' : onlyp p s s' -> onlyp p s' s'' -> onlyp p s s''.
Proof.
  intros (Q1 & L1 & N1 & K1) (Q2 & L2 & N2 & K2). split; [intros q Hq; rewrite Q2, Q1; auto|].
  split; [congruence|]. split.
  { intros i. destruct (N1 i), (N2 i). split; congruence. }
  intros i. destruct (K1 i) as [E1|(A1 & B1 & C1)], (K2 i) as [E2|(A2 & B2 & C2)].
  - left. congruence.
  - right. rewrite <- E1. auto.
  - right. rewrite E2. auto.
  - right. auto.
Qed.
Lemma onlyp_then p s s' g : onlyp p s s' -> g_list g = g_list (y_plug s' p) -> onlyp p s (put_plug s' p g).
Proof. intros H E. eapply onlyp_trans; [exact H|apply onlyp_plug; exact E]. Qed.
Lemma onlyp_disc p s i : onlyp p s (fst (request_disconnection s i p)).
Proof.
  unfold request_disconnection. cbn [fst]. destruct (is_connected s i p) eqn:E.
  2:{ split; [reflexivity|]. split; [reflexivity|]. split; [split; reflexivity|]. left; reflexivity. }
  apply is_connected_spec in E. split; [reflexivity|]. split; [reflexivity|].
  cbn [put_sock y_sock]. split; intros k; destruct (Nat.eq_dec k i) as [->|Hne].
  - rewrite setn_same. split; reflexivity.
  - rewrite setn_other by exact Hne. split; reflexivity.
  - right. rewrite setn_same. cbn. unfold mine. cbn. split; [right; exact E|]. split; [left; reflexivity|].
    split; [discriminate|congruence].
  - left. now rewrite setn_other by exact Hne.
Qed.
Lemma onlyp_conn p s i s' n : request_connection s i p = Some (s', n) -> onlyp p s s'.
Proof.
  unfold request_connection. destruct (k_plug (y_sock s i)) eqn:E; [discriminate|]. intros [= <- <-].
  split; [reflexivity|]. split; [reflexivity|].
  cbn [put_sock y_sock]. split; intros k; destruct (Nat.eq_dec k i) as [->|Hne].
  - rewrite setn_same. split; reflexivity.
  - rewrite setn_other by exact Hne. split; reflexivity.
  - right. rewrite setn_same. cbn. unfold mine. cbn. split; [left; exact E|]. split; [right; reflexivity|].
    split; [discriminate|reflexivity].
  - left. now rewrite setn_other by exact Hne.
Qed.

(** The disconnection request is not acted on. *)
Definition ignored (g : plug) : bool :=
  (none g =? g_disc g) || (negb (g_active g =? g_disc g) && negb (g_active g =? none g)).

(** Every way through processDisconnection, from a state in which the sockets hold
    the plug where it says. *)
Inductive disc_run (s : sys) (p : nat) : sys -> bool -> Prop :=
| dr_throw : ignored (y_plug s p) = false -> ~ 0 <= g_disc (y_plug s p) < none (y_plug s p) ->
    disc_run s p s true
| dr_stay s' : ignored (y_plug s p) = true -> y_sock s' = y_sock s ->
    y_plug s' p = with_disc (y_plug s p) (none (y_plug s p)) -> disc_run s p s' false
| dr_leave s' i : ignored (y_plug s p) = false -> entry s p (g_disc (y_plug s p)) i ->
    held_at s' p (none (y_plug s p)) ->
    y_plug s' p = with_disc (with_last (with_node (y_plug s p) (k_n1 (y_sock s i))) (g_disc (y_plug s p))) (none (y_plug s p)) ->
    (forall k, k_plug (y_sock s' k) = if is_connected s k p then None else k_plug (y_sock s k)) ->
    disc_run s p s' false.

Lemma get_entry s p a i : get_socket (y_plug s p) a = Some i -> entry s p a i.
Proof. intros H. apply get_socket_entry in H. destruct H. split; [lia|assumption]. Qed.
Lemma held_unique s p a i : held_at s p a -> holds s i p -> entry s p a i.
Proof.
  intros (ND & Ha & He & Hl) Hh. pose proof (Hl i Hh) as Hin. apply In_nth_error in Hin. destruct Hin as (b & Hb).
  assert (Eb : entry s p (Z.of_nat b) i) by (split; [lia|]; rewrite Nat2Z.id; exact Hb).
  pose proof (proj1 (He _ _ Eb) Hh). subst a. exact Eb.
Qed.

Lemma process_disc_run s p : view_ok s p ->
  onlyp p s (fst (process_disc s p)) /\ disc_run s p (fst (process_disc s p)) (snd (process_disc s p)).
Proof.
  intros V. unfold process_disc. cbv zeta.
  destruct (Z.eqb_spec (none (y_plug s p)) (g_disc (y_plug s p))) as [Edn|Edn]; cbn [negb].
  { cbn [fst snd]. split; [apply onlyp_plug; reflexivity|]. apply dr_stay.
    - unfold ignored. rewrite Edn, Z.eqb_refl. reflexivity.
    - reflexivity.
    - cbn [put_plug y_plug]. now rewrite setn_same. }
  destruct (negb (g_active (y_plug s p) =? g_disc (y_plug s p)) && negb (g_active (y_plug s p) =? none (y_plug s p))) eqn:Ei.
  { cbn [fst snd]. split; [apply onlyp_plug; reflexivity|]. apply dr_stay.
    - unfold ignored. rewrite Ei. apply orb_true_r.
    - reflexivity.
    - cbn [put_plug y_plug]. now rewrite setn_same. }
  assert (Ig : ignored (y_plug s p) = false).
  { unfold ignored. rewrite Ei. apply Z.eqb_neq in Edn. now rewrite Edn. }
  destruct (get_socket (y_plug s p) (g_disc (y_plug s p))) as [i|] eqn:G.
  2:{ cbn [fst snd]. split; [|apply dr_throw; [exact Ig|now apply get_socket_none]].
      split; [reflexivity|]. split; [reflexivity|]. split; [split; reflexivity|]. left; reflexivity. }
  apply get_entry in G.
  pose proof (onlyp_disc p s i) as O.
  assert (H1 : held_at (fst (request_disconnection s i p)) p (none (y_plug s p))).
  { apply andb_false_iff in Ei. rewrite !negb_false_iff, !Z.eqb_eq in Ei. rewrite view_held in V. destruct Ei as [Ea|Ea].
    - rewrite Ea in V. now apply (disconnect_held s p (g_disc (y_plug s p))).
    - rewrite Ea in V. unfold request_disconnection. cbn [fst].
      destruct (is_connected s i p) eqn:Ec; [|exact V]. exfalso. apply is_connected_spec in Ec.
      pose proof (held_unique _ _ _ _ V Ec) as En. apply entry_range in En. lia. }
  assert (K1 : forall k, k_plug (y_sock (fst (request_disconnection s i p)) k) =
     if is_connected s k p then None else k_plug (y_sock s k)).
  { intros k. unfold request_disconnection. cbn [fst]. destruct (is_connected s i p) eqn:Ec.
    - cbn [put_sock y_sock]. destruct (Nat.eq_dec k i) as [->|Hne].
      + rewrite setn_same, Ec. reflexivity.
      + rewrite setn_other by exact Hne. destruct (is_connected s k p) eqn:Ek; [|reflexivity].
        apply is_connected_spec in Ec, Ek. rewrite view_held in V.
        pose proof (held_unique _ _ _ _ V Ec) as (_ & E1). pose proof (held_unique _ _ _ _ V Ek) as (_ & E2). congruence.
    - destruct (is_connected s k p) eqn:Ek; [|reflexivity]. exfalso.
      assert (Hk : holds (fst (request_disconnection s i p)) k p).
      { unfold request_disconnection. cbn [fst]. rewrite Ec. now apply is_connected_spec. }
      pose proof (held_unique _ _ _ _ H1 Hk) as En. apply entry_range in En.
      unfold request_disconnection in En. rewrite Ec in En. cbn [fst] in En. lia. }
  assert (Yp : y_plug (fst (request_disconnection s i p)) = y_plug s).
  { unfold request_disconnection. cbn [fst]. destruct (is_connected s i p); reflexivity. }
  assert (Nd : snd (request_disconnection s i p) = k_n1 (y_sock s i)) by reflexivity.
  destruct (request_disconnection s i p) as [s1 node]. cbn [fst snd] in *. subst node.
  split.
  - apply onlyp_then; [apply onlyp_then; [exact O|reflexivity]|]. reflexivity.
  - apply (dr_leave s p _ i Ig G).
    + refine (held_same s1 _ p _ _ _ H1); [|reflexivity]. cbn [put_plug y_plug]. rewrite !setn_same. reflexivity.
    + cbn [put_plug y_plug]. rewrite !setn_same, Yp. reflexivity.
    + intros k. cbn [put_plug y_sock]. apply K1.
Qed.

(** Every way through processConnection. *)
Inductive conn_run (s : sys) (p : nat) : sys -> bool -> Prop :=
| cr_throw : g_conn (y_plug s p) <> none (y_plug s p) -> g_active (y_plug s p) = none (y_plug s p) ->
    ~ 0 <= g_conn (y_plug s p) < none (y_plug s p) -> conn_run s p s true
| cr_stay s' : (g_conn (y_plug s p) = none (y_plug s p) \/ g_active (y_plug s p) <> none (y_plug s p) \/
      exists i, entry s p (g_conn (y_plug s p)) i /\ ~ free s i) ->
    y_sock s' = y_sock s ->
    y_plug s' p = with_conn (y_plug s p) (none (y_plug s p)) -> conn_run s p s' false
| cr_join s' i : g_active (y_plug s p) = none (y_plug s p) -> entry s p (g_conn (y_plug s p)) i -> free s i ->
    held_at s' p (g_conn (y_plug s p)) ->
    y_plug s' p = with_conn (with_last (with_node (y_plug s p) (k_n0 (y_sock s i))) (none (y_plug s p))) (none (y_plug s p)) ->
    (forall k, k_plug (y_sock s' k) = if Nat.eqb k i then Some p else k_plug (y_sock s k)) ->
    conn_run s p s' false.

Lemma process_conn_run s p : view_ok s p ->
  onlyp p s (fst (process_conn s p)) /\ conn_run s p (fst (process_conn s p)) (snd (process_conn s p)).
Proof.
  intros V. unfold process_conn. cbv zeta.
  assert (Stay : (g_conn (y_plug s p) = none (y_plug s p) \/ g_active (y_plug s p) <> none (y_plug s p) \/
      exists i, entry s p (g_conn (y_plug s p)) i /\ ~ free s i) ->
    onlyp p s (put_plug s p (with_conn (y_plug s p) (none (y_plug s p)))) /\
    conn_run s p (put_plug s p (with_conn (y_plug s p) (none (y_plug s p)))) false).
  { intros H. split; [apply onlyp_plug; reflexivity|]. apply cr_stay; [exact H|reflexivity|].
    cbn [put_plug y_plug]. now rewrite setn_same. }
  destruct (Z.eqb_spec (none (y_plug s p)) (g_conn (y_plug s p))) as [Ecn|Ecn]; cbn [negb].
  { cbn [fst snd]. apply Stay. auto. }
  destruct (Z.eqb_spec (none (y_plug s p)) (g_active (y_plug s p))) as [Ea|Ea]; cbn [negb].
  2:{ cbn [fst snd]. apply Stay. auto. }
  destruct (get_socket (y_plug s p) (g_conn (y_plug s p))) as [i|] eqn:G.
  2:{ cbn [fst snd]. split; [|apply cr_throw; [auto|auto|now apply get_socket_none]].
      split; [reflexivity|]. split; [reflexivity|]. split; [split; reflexivity|]. left; reflexivity. }
  apply get_entry in G.
  destruct (request_connection s i p) as [[s1 n]|] eqn:R.
  2:{ cbn [fst snd]. apply Stay. right; right. exists i. split; [exact G|]. unfold request_connection, free in *.
      destruct (k_plug (y_sock s i)); congruence. }
  pose proof (onlyp_conn _ _ _ _ _ R) as O. rewrite view_held, <- Ea in V.
  destruct (connect_held _ _ _ _ _ _ V G R) as (H1 & -> & Fr).
  assert (Yp : y_plug s1 = y_plug s /\ y_sock s1 = setn (y_sock s) i (with_plug (y_sock s i) (Some p) true)).
  { unfold request_connection in R. rewrite Fr in R. inversion R. split; reflexivity. }
  destruct Yp as (Yp & Ys). cbn [fst snd]. split.
  - apply onlyp_then; [apply onlyp_then; [exact O|reflexivity]|]. reflexivity.
  - apply (cr_join s p _ i); auto.
    + refine (held_same s1 _ p _ _ _ H1); [|reflexivity]. cbn [put_plug y_plug]. rewrite !setn_same. reflexivity.
    + cbn [put_plug y_plug]. rewrite !setn_same, Yp. reflexivity.
    + intros k. cbn [put_plug y_sock]. rewrite Ys. unfold setn. destruct (Nat.eqb k i); reflexivity.
Qed.

(** ** The whole of update *)

Definition plugs_of (s : sys) (k : nat) : option nat := k_plug (y_sock s k).
(** The plug and the sockets after a call. *)
Definition now (s' : sys) (p : nat) (K : nat -> option nat) (a n l c d : Z) : Prop :=
  let g := y_plug s' p in
  g_active g = a /\ g_node g = n /\ g_last g = l /\ g_conn g = c /\ g_disc g = d /\ (forall k, plugs_of s' k = K k).

(** After the disconnection half: sockets, active connection, node, last disconnection. *)
Inductive half (s : sys) (p : nat) (node : Z) (D : Z) : (nat -> option nat) -> Z -> Z -> Z -> Prop :=
| h_stay : 
    (none (y_plug s p) = D \/ g_active (y_plug s p) <> D /\ g_active (y_plug s p) <> none (y_plug s p)) ->
    half s p node D (plugs_of s) (g_active (y_plug s p)) node (g_last (y_plug s p))
| h_leave i : 
    D <> none (y_plug s p) -> (g_active (y_plug s p) = D \/ g_active (y_plug s p) = none (y_plug s p)) -> entry s p D i ->
    half s p node D (fun k => if is_connected s k p then None else plugs_of s k) (none (y_plug s p)) (k_n1 (y_sock s i)) D.

Inductive run (s : sys) (p : nat) (node : Z) (s' : sys) : bool -> Prop :=
| r_disc_throw :
    (asked_disc (y_plug s p)) <> none (y_plug s p) -> (g_active (y_plug s p) = (asked_disc (y_plug s p)) \/ g_active (y_plug s p) = none (y_plug s p)) -> ~ 0 <= (asked_disc (y_plug s p)) < none (y_plug s p) ->
    now s' p (plugs_of s) (g_active (y_plug s p)) node (g_last (y_plug s p)) (asked_conn s (y_plug s p)) (asked_disc (y_plug s p)) -> run s p node s' true
| r_conn_throw K a n l :
    half s p node (asked_disc (y_plug s p)) K a n l -> a = none (y_plug s p) -> (asked_conn s (y_plug s p)) <> none (y_plug s p) -> ~ 0 <= (asked_conn s (y_plug s p)) < none (y_plug s p) ->
    now s' p K a n l (asked_conn s (y_plug s p)) (none (y_plug s p)) -> run s p node s' true
| r_stay K a n l :
    half s p node (asked_disc (y_plug s p)) K a n l ->
    ((asked_conn s (y_plug s p)) = none (y_plug s p) \/ a <> none (y_plug s p) \/ exists i, entry s p (asked_conn s (y_plug s p)) i /\ K i <> None) ->
    now s' p K a n l (none (y_plug s p)) (none (y_plug s p)) -> run s p node s' false
| r_join K a n l i :
    half s p node (asked_disc (y_plug s p)) K a n l -> a = none (y_plug s p) -> entry s p (asked_conn s (y_plug s p)) i -> K i = None ->
    now s' p (fun k => if Nat.eqb k i then Some p else K k) (asked_conn s (y_plug s p)) (k_n0 (y_sock s i)) (none (y_plug s p)) (none (y_plug s p)) (none (y_plug s p)) ->
    run s p node s' false.

Lemma update_active_view s p a : held_at s p a -> view_ok (update_active s p) p /\ g_active (y_plug (update_active s p) p) = a.
Proof.
  intros H. pose proof (update_active_held s p a H) as Ea. split; [|exact Ea].
  rewrite view_held, Ea. refine (held_same s _ p a _ _ H); [|reflexivity].
  unfold update_active. cbn [put_plug y_plug]. now rewrite setn_same.
Qed.

Lemma ignored_spec g : if ignored g
  then none g = g_disc g \/ g_active g <> g_disc g /\ g_active g <> none g
  else g_disc g <> none g /\ (g_active g = g_disc g \/ g_active g = none g).
Proof.
  unfold ignored. destruct (Z.eqb_spec (none g) (g_disc g)), (Z.eqb_spec (g_active g) (g_disc g)), (Z.eqb_spec (g_active g) (none g));
    cbn; auto; try (split; [congruence|auto]).
Qed.

Lemma update_run s p node : view_ok s p ->
  onlyp p s (fst (update s p node)) /\ view_ok (fst (update s p node)) p /\
  run s p node (fst (update s p node)) (snd (update s p node)).
Proof.
  intros V. unfold update. cbv zeta.
  set (sA := put_plug s p (with_node (y_plug s p) node)).
  assert (OA : onlyp p s sA) by (apply onlyp_plug; reflexivity).
  assert (GA : y_plug sA p = with_node (y_plug s p) node) by (unfold sA; cbn [put_plug y_plug]; apply setn_same).
  assert (KA : y_sock sA = y_sock s) by reflexivity.
  clearbody sA.
  destruct (process_direct_spec sA p) as (OB & KB & NB & AB & LB & DB & CB). cbv zeta in *.
  set (sB := process_direct sA p) in *. clearbody sB.
  rewrite GA in NB, AB, LB. cbn [with_node g_node g_active g_last] in NB, AB, LB.
  assert (DB' : g_disc (y_plug sB p) = asked_disc (y_plug s p)) by (rewrite DB, GA; reflexivity).
  assert (CB' : g_conn (y_plug sB p) = asked_conn s (y_plug s p)).
  { rewrite CB, GA. unfold asked_conn. rewrite KA. reflexivity. }
  clear DB CB. pose proof (onlyp_trans _ _ _ _ OA OB) as OAB. clear OA OB GA.
  assert (LBl : g_list (y_plug sB p) = g_list (y_plug s p)) by apply OAB.
  assert (SB : y_sock sB = y_sock s) by congruence. clear KA KB sA.
  pose proof (none_list _ _ LBl) as Nn.
  assert (EntB : forall a i, entry sB p a i <-> entry s p a i) by (intros; unfold entry; rewrite LBl; tauto).
  assert (HB : held_at sB p (g_active (y_plug s p))).
  { refine (held_same s sB p _ LBl _ _); [intros; now rewrite SB|]. now apply view_held. }
  assert (VB : view_ok sB p) by (rewrite view_held, AB; exact HB).
  destruct (process_disc_run sB p VB) as (OC & RC).
  pose proof (ignored_spec (y_plug sB p)) as Ig.
  destruct (process_disc sB p) as [sC e]. cbn [fst snd] in *.
  pose proof (onlyp_trans _ _ _ _ OAB OC) as OsC.
  assert (Mid : e = false -> exists K a n l, half s p node (asked_disc (y_plug s p)) K a n l /\
     held_at sC p a /\ (forall k, plugs_of sC k = K k) /\ g_node (y_plug sC p) = n /\ g_last (y_plug sC p) = l /\
     g_conn (y_plug sC p) = asked_conn s (y_plug s p) /\ g_disc (y_plug sC p) = none (y_plug s p)).
  { intros ->. clear - RC Ig HB LBl SB Nn EntB NB AB LB DB' CB'.
    inversion RC as [|s0 I1 E1 E2 Es|s0 i I1 En E1 E2 E3 Es]; clear RC; try subst s0.
    - rewrite I1, Nn, DB', AB in Ig. do 4 eexists. split; [apply h_stay; exact Ig|].
      split; [refine (held_same sB sC p _ _ _ HB); [rewrite E2; reflexivity|intros; now rewrite E1]|].
      split; [intros k; unfold plugs_of; rewrite E1, SB; reflexivity|].
      rewrite E2. cbn. rewrite NB, LB, CB', Nn. auto.
    - rewrite I1, Nn, DB', AB in Ig. destruct Ig as (Ig1 & Ig2). rewrite DB' in En. do 4 eexists.
      split; [apply (h_leave s p node _ i Ig1 Ig2); now apply EntB|].
      split; [rewrite <- Nn; exact E1|].
      split; [intros k; unfold plugs_of; rewrite E3, SB; unfold is_connected; rewrite SB; reflexivity|].
      rewrite E2. cbn. rewrite DB', CB', Nn, SB. auto. }
  destruct e.
  { cbn [fst snd]. split; [exact OsC|]. inversion RC as [I1 I2 Es| |]; clear RC; subst sC. split; [exact VB|].
    rewrite I1, Nn, DB', AB in Ig. rewrite Nn, DB' in I2. destruct Ig as (Ig1 & Ig2).
    apply r_disc_throw; auto. unfold now. cbv zeta. rewrite AB, NB, LB, CB', DB'. repeat split. intros k. unfold plugs_of. now rewrite SB. }
  destruct (Mid eq_refl) as (K & a & n & l & Hf & HC & KC & NC & LC & CC & DC). clear Mid RC Ig HB VB NB AB LB DB' CB' OC.
  destruct (update_active_view sC p a HC) as (VD & AD).
  pose proof (update_active_rest sC p) as (D1 & _ & _ & D4 & D5 & D6 & D7 & D8). cbv zeta in *.
  pose proof (onlyp_trans _ _ _ _ OsC (update_active_only sC p)) as OsD.
  set (sD := update_active sC p) in *. clearbody sD.
  assert (LD : g_list (y_plug sD p) = g_list (y_plug s p)) by apply OsD.
  pose proof (none_list _ _ LD) as NnD.
  assert (EntD : forall a i, entry sD p a i <-> entry s p a i) by (intros; unfold entry; rewrite LD; tauto).
  assert (KD : forall k, plugs_of sD k = K k) by (intros k; rewrite <- KC; unfold plugs_of; now rewrite D8).
  destruct (process_conn_run sD p VD) as (OE & RE).
  destruct (process_conn sD p) as [sE e]. cbn [fst snd] in *.
  pose proof (onlyp_trans _ _ _ _ OsD OE) as OsE.
  assert (N0 : forall i, k_n0 (y_sock sD i) = k_n0 (y_sock s i)) by (intros i; destruct OsD as (_ & _ & N & _); apply N).
  inversion RE as [I1 I2 I3 Es Ee|s0 I1 E1 E2 Es Ee|s0 i I1 En Fr HE E2 E3 Es Ee]; clear RE; try subst s0; try subst sE; try subst e; subst n l.
  - cbn [fst snd]. split; [exact OsE|]. split; [exact VD|].
    rewrite D5, CC, NnD in I1, I3. rewrite NnD in I2. rewrite AD in I2.
    apply (r_conn_throw s p node _ K a _ _ Hf I2 I1 I3). unfold now. cbv zeta. rewrite I2 in *.
    rewrite D5, D6, D1, D4, CC, DC. repeat split; [exact AD|exact KD].
  - cbn [fst snd].
    assert (HE : held_at sE p a).
    { refine (held_same sD sE p a _ _ _); [rewrite E2; reflexivity|intros; now rewrite E1|]. rewrite <- AD. now apply view_held. }
    destruct (update_active_view sE p a HE) as (VF & AF).
    pose proof (update_active_rest sE p) as (F1 & _ & _ & F4 & F5 & F6 & F7 & F8). cbv zeta in *.
    split; [exact (onlyp_trans _ _ _ _ OsE (update_active_only sE p))|]. split; [exact VF|].
    rewrite D5, CC, NnD, AD in I1.
    apply (r_stay s p node _ K a _ _ Hf).
    + destruct I1 as [I1|[I1|(i & En & Fr)]]; auto. right; right. exists i. split; [now apply EntD|].
      rewrite <- KD. exact Fr.
    + unfold now. cbv zeta. rewrite AF, F1, F4, F5, F6, E2. cbn. rewrite D1, D4, D6, DC, NnD.
      repeat split. intros k. rewrite <- KD. unfold plugs_of. now rewrite F8, E1.
  - cbn [fst snd].
    destruct (update_active_view sE p _ HE) as (VF & AF).
    pose proof (update_active_rest sE p) as (F1 & _ & _ & F4 & F5 & F6 & F7 & F8). cbv zeta in *.
    split; [exact (onlyp_trans _ _ _ _ OsE (update_active_only sE p))|]. split; [exact VF|].
    rewrite D5, CC in En. rewrite NnD, AD in I1. apply EntD in En.
    apply (r_join s p node _ K a _ _ i Hf I1 En).
    + rewrite <- KD. exact Fr.
    + unfold now. cbv zeta. rewrite AF, F1, F4, F5, F6, E2. cbn. rewrite D5, CC, D6, DC, NnD, N0.
      repeat split. intros k. unfold plugs_of. rewrite F8, E3. rewrite <- KD. reflexivity.
Qed.

(** ** The invariant holds throughout *)

Lemma onlyp_holds p s s' q i : onlyp p s s' -> q <> p -> (holds s' i q <-> holds s i q).
Proof.
  intros (_ & _ & _ & K) Hq. unfold holds. destruct (K i) as [->|(A & B & _)]; [tauto|].
  unfold mine in *. split; intros H; [destruct B as [B|B]|destruct A as [A|A]]; congruence.
Qed.
Lemma onlyp_view p s s' q : onlyp p s s' -> q <> p -> view_ok s q -> view_ok s' q.
Proof.
  intros O Hq (ND & Ha & He & Hl). pose proof O as (Q & _). unfold view_ok. cbv zeta. rewrite (Q q Hq).
  split; [exact ND|]. split; [exact Ha|]. split.
  - intros a i E. rewrite (onlyp_holds _ _ _ _ _ O Hq). apply He. unfold entry in *. now rewrite <- (Q q Hq).
  - intros i H. apply Hl. now apply (onlyp_holds _ _ _ _ _ O Hq).
Qed.
Lemma onlyp_has p s s' : onlyp p s s' -> has_ok s -> has_ok s'.
Proof. intros (_ & _ & _ & K) H i. destruct (K i) as [->|(_ & _ & C)]; [apply H|exact C]. Qed.
Lemma onlyp_all p s s' : onlyp p s s' -> all_ok s -> view_ok s' p -> all_ok s'.
Proof.
  intros O (V & H) Vp. split; [|exact (onlyp_has _ _ _ O H)]. intros q.
  destruct (Nat.eq_dec q p) as [->|Hq]; [exact Vp|]. exact (onlyp_view _ _ _ _ O Hq (V q)).
Qed.

Lemma put_plug_all s p g : g_list g = g_list (y_plug s p) -> g_active g = g_active (y_plug s p) -> all_ok s -> all_ok (put_plug s p g).
Proof.
  intros El Ea A. apply (onlyp_all p s); [apply onlyp_plug; exact El|exact A|].
  rewrite view_held. cbn [put_plug y_plug]. rewrite setn_same, Ea. fold (put_plug s p g).
  refine (held_same s _ p _ _ _ _); [|reflexivity|apply view_held; apply A].
  cbn [put_plug y_plug]. rewrite setn_same. exact El.
Qed.

Lemma initialize_all s p node sock s' : all_ok s -> initialize s p node sock = Some s' ->
  all_ok s' /\ onlyp p s s' /\ g_active (y_plug s' p) = sock /\ 0 <= sock <= none (y_plug s p).
Proof.
  intros A. unfold initialize. cbv zeta.
  set (g := with_disable (with_direct (y_plug s p) (-99)) false). change (none g) with (none (y_plug s p)).
  destruct (Z.ltb_spec sock 0), (Z.ltb_spec (none (y_plug s p)) sock); cbn [orb]; try discriminate.
  set (s1 := put_plug s p (with_conn (with_node g node) sock)).
  assert (A1 : all_ok s1) by (apply put_plug_all; [reflexivity|reflexivity|exact A]).
  assert (O1 : onlyp p s s1) by (apply onlyp_plug; reflexivity).
  destruct (process_conn_run s1 p (proj1 A1 p)) as (O2 & R).
  destruct (process_conn s1 p) as [s2 e]. cbn [fst snd] in *.
  destruct e; [discriminate|].
  destruct (g_active (y_plug (update_active s2 p) p) =? sock) eqn:E; [|discriminate]. intros [= <-].
  apply Z.eqb_eq in E.
  pose proof (onlyp_trans _ _ _ _ (onlyp_trans _ _ _ _ O1 O2) (update_active_only s2 p)) as O.
  split; [|split; [exact O|split; [exact E|lia]]]. apply (onlyp_all p s); [exact O|exact A|].
  assert (exists a, held_at s2 p a) as (a & H2).
  { inversion R as [|s0 I1 E1 E2 Es Ee|s0 i I1 En Fr HE E2 E3 Es Ee].
    - exists (g_active (y_plug s1 p)). refine (held_same s1 s2 p _ _ _ _).
      + apply O2. + intros; now rewrite E1. + apply view_held. apply A1.
    - eauto. }
  exact (proj1 (update_active_view s2 p a H2)).
Qed.

Lemma reach_all s : reach s -> all_ok s.
Proof.
  induction 1 as [s (U1 & U2)|s p node sock s' _ IH E|s p g _ IH (E1 & E2 & E3 & E4)|s i k _ IH (M1 & M2)|s p node _ IH|s p _ IH].
  - split.
    + intros p. destruct (U2 p) as (ND & Ea). split; [exact ND|]. rewrite Ea. split; [unfold none; lia|]. split.
      * intros a i En. unfold holds. destruct (U1 i) as (-> & _). split; [discriminate|]. intros <-.
        apply entry_range in En. lia.
      * intros i. unfold holds. destruct (U1 i) as (-> & _). discriminate.
    + intros i. destruct (U1 i) as (-> & ->). split; [discriminate|congruence].
  - exact (proj1 (initialize_all _ _ _ _ _ IH E)).
  - now apply put_plug_all.
  - assert (K : forall a, k_plug (y_sock (put_sock s i k) a) = k_plug (y_sock s a)).
    { intros a. cbn [put_sock y_sock]. destruct (Nat.eq_dec a i) as [->|Hn]; [now rewrite setn_same|now rewrite setn_other]. }
    split.
    + intros p. rewrite view_held. refine (held_same s _ p _ _ _ _); [reflexivity|exact K|]. apply (proj1 IH p).
    + intros a. rewrite K. cbn [put_sock y_sock]. destruct (Nat.eq_dec a i) as [->|Hn].
      * rewrite setn_same, M2. apply (proj2 IH).
      * rewrite setn_other by exact Hn. apply (proj2 IH).
  - destruct (update_run s p node (proj1 IH p)) as (O & V & _). exact (onlyp_all p s _ O IH V).
  - unfold restart_requests. cbv zeta. apply put_plug_all; [| |exact IH];
      destruct (negb (none (y_plug s p) =? g_active (y_plug s p))); reflexivity.
Qed.

(** ** C100: a plug is in the socket it says, and in no other *)

Theorem C100_plug s p : reach s -> let g := y_plug s p in
  0 <= g_active g <= none g /\
  (forall a i, entry s p a i -> (holds s i p <-> g_active g = a)) /\
  (g_active g = none g <-> forall i, ~ holds s i p) /\
  (forall i j, holds s i p -> holds s j p -> i = j).
Proof.
  intros R. cbv zeta. pose proof (proj1 (reach_all s R) p) as V. pose proof V as (ND & Ha & He & Hl).
  split; [exact Ha|]. split; [exact He|]. rewrite view_held in V. split; [split|].
  - intros E i Hi. rewrite E in V. pose proof (entry_range _ _ _ _ (held_unique _ _ _ _ V Hi)). lia.
  - intros N. destruct (Z.eq_dec (g_active (y_plug s p)) (none (y_plug s p))) as [|Hne]; [assumption|].
    destruct (has_entry s p (g_active (y_plug s p))) as (i & En); [lia|]. exfalso. apply (N i). now apply (He _ _ En).
  - intros i j Hi Hj. destruct (held_unique _ _ _ _ V Hi) as (_ & E1). destruct (held_unique _ _ _ _ V Hj) as (_ & E2). congruence.
Qed.
Theorem C100_socket s i : reach s ->
  (k_has (y_sock s i) = true <-> exists p, holds s i p) /\ (forall p q, holds s i p -> holds s i q -> p = q).
Proof.
  intros R. pose proof (proj2 (reach_all s R) i) as H. unfold holds. split.
  - rewrite H. destruct (k_plug (y_sock s i)); split; intros K; eauto; try discriminate; try congruence. destruct K; discriminate.
  - intros. congruence.
Qed.

(** ** C101: nobody else's business *)

Theorem C101_others s p node : reach s -> let s' := fst (update s p node) in
  (forall q, q <> p -> y_plug s' q = y_plug s q /\ forall i, holds s' i q <-> holds s i q) /\
  (forall i, k_n0 (y_sock s' i) = k_n0 (y_sock s i) /\ k_n1 (y_sock s' i) = k_n1 (y_sock s i)) /\
  g_list (y_plug s' p) = g_list (y_plug s p).
Proof.
  intros R. cbv zeta. destruct (update_run s p node (proj1 (reach_all s R) p)) as (O & _). pose proof O as (Q & L & N & _).
  split; [|split; [exact N|exact L]]. intros q Hq. split; [now apply Q|]. intros i. now apply (onlyp_holds p).
Qed.

(** ** C102: what the requests do *)

Lemma direct_on_spec g : direct_on g = true <-> g_disable g = false /\ 0 <= g_direct g <= none g /\ g_direct g <> g_active g.
Proof.
  unfold direct_on. rewrite !andb_true_iff, !negb_true_iff, !Z.leb_le, Z.eqb_neq. tauto.
Qed.
Lemma no_direct_off g : no_direct g -> direct_on g = false.
Proof.
  intros H. destruct (direct_on g) eqn:E; [|reflexivity]. apply direct_on_spec in E. destruct H as [H|[H|H]]; intuition congruence.
Qed.

(** Another plug is in the socket. *)
Definition taken (s : sys) (p i : nat) : Prop := exists q, q <> p /\ holds s i q.

Lemma half_inv s p node D K a n l : view_ok s p -> half s p node D K a n l -> let g := y_plug s p in
  (a = g_active g \/ a = none g) /\
  (forall i, K i <> None <-> taken s p i \/ holds s i p /\ a <> none g) /\
  (D <> g_active g -> a = g_active g) /\ (g_active g = D -> a = none g) /\
  ((none g = D \/ g_active g <> D /\ g_active g <> none g) -> n = node /\ l = g_last g) /\
  (D <> none g -> (g_active g = D \/ g_active g = none g) -> l = D /\ exists i, entry s p D i /\ n = k_n1 (y_sock s i)).
Proof.
  intros V H. cbv zeta. pose proof V as (ND & Ha & He & Hl). rewrite view_held in V.
  assert (Gone : g_active (y_plug s p) = none (y_plug s p) -> forall i, ~ holds s i p).
  { intros E i Hi. rewrite E in V. pose proof (entry_range _ _ _ _ (held_unique _ _ _ _ V Hi)). lia. }
  inversion H; subst.
  - split; [auto|]. split; [|split; [auto|split; [|split; [auto|]]]].
    + intros i. unfold plugs_of, taken, holds. split.
      * intros Hk. destruct (k_plug (y_sock s i)) as [q|] eqn:E; [|congruence].
        destruct (Nat.eq_dec q p) as [->|Hq]; [right|left; eauto].
        split; [reflexivity|]. intros E2. exact (Gone E2 i E).
      * intros [(q & _ & ->)|(-> & _)]; discriminate.
    + intros <-. destruct H0 as [<-|[H0 _]]; [reflexivity|congruence].
    + intros. exfalso. destruct H0 as [H0|[H0 H3]]; [congruence|tauto].
  - split; [auto|]. split; [|split; [|split; [auto|split]]].
    + intros i'. unfold taken. destruct (is_connected s i' p) eqn:E.
      * apply is_connected_spec in E. split; [congruence|]. unfold holds in *. intros [(q & Hq & Hh)|(_ & Hn)]; congruence.
      * split.
        -- unfold plugs_of. intros Hk. left. destruct (k_plug (y_sock s i')) as [q|] eqn:E2; [|congruence].
           exists q. split; [|exact E2]. intros ->. apply is_connected_spec in E2. congruence.
        -- unfold plugs_of, holds. intros [(q & _ & ->)|(_ & Hn)]; congruence.
    + intros Hn. destruct H1; [congruence|auto].
    + intros Hx. exfalso. destruct Hx as [Hx|[Hx Hy]]; [congruence|tauto].
    + intros _ _. split; [reflexivity|]. eauto.
Qed.

(** The requests after the direct one are honoured in this order: leave, then join. *)
Theorem C102_requests s p node : reach s -> let g := y_plug s p in let s' := fst (update s p node) in let g' := y_plug s' p in
  sane g -> no_direct g ->
  snd (update s p node) = false /\ g_conn g' = none g /\ g_disc g' = none g /\
  (g_active g <> none g -> g_disc g <> g_active g -> g_active g' = g_active g /\ g_node g' = node /\ g_last g' = g_last g) /\
  (forall j, g_active g = none g \/ g_disc g = g_active g -> entry s p (g_conn g) j -> ~ taken s p j ->
     g_active g' = g_conn g /\ holds s' j p /\ g_node g' = k_n0 (y_sock s j) /\ g_last g' = none g) /\
  (g_active g = none g \/ g_disc g = g_active g -> g_conn g = none g \/ (exists j, entry s p (g_conn g) j /\ taken s p j) ->
     g_active g' = none g /\ (forall i, ~ holds s' i p) /\
     (forall i, entry s p (g_disc g) i -> g_node g' = k_n1 (y_sock s i) /\ g_last g' = g_disc g) /\
     (g_disc g = none g -> g_node g' = node /\ g_last g' = g_last g)).
Proof.
  intros R. cbv zeta. intros (Sc & Sd) Nd. apply no_direct_off in Nd.
  pose proof (proj1 (reach_all s R) p) as V. destruct (update_run s p node V) as (O & V' & Rn).
  assert (Ad : asked_disc (y_plug s p) = g_disc (y_plug s p)) by (unfold asked_disc; now rewrite Nd).
  assert (Ac : asked_conn s (y_plug s p) = g_conn (y_plug s p)) by (unfold asked_conn; now rewrite Nd).
  assert (Gone : forall t, view_ok t p -> g_active (y_plug t p) = none (y_plug t p) -> forall i, ~ holds t i p).
  { intros t Vt E i Hi. rewrite view_held, E in Vt. pose proof (entry_range _ _ _ _ (held_unique _ _ _ _ Vt Hi)). lia. }
  pose proof (none_list _ _ (proj1 (proj2 O))) as Nn.
  set (s' := fst (update s p node)) in *. clearbody s'. pose proof V as (_ & Ha & _).
  inversion Rn as [D1 D2 D3 Hnow Ee|K a n l Hf Ea C1 C2 Hnow Ee|K a n l Hf Hs Hnow Ee|K a n l i Hf Ea En Ki Hnow Ee];
    cbv zeta in *; rewrite ?Ad, ?Ac in *.
  - exfalso. lia.
  - exfalso. lia.
  - destruct Hnow as (N1 & N2 & N3 & N4 & N5 & N6). destruct (half_inv _ _ _ _ _ _ _ _ V Hf) as (I1 & I2 & I3 & I4 & I5 & I6). cbv zeta in *.
    split; [reflexivity|]. split; [exact N4|]. split; [exact N5|]. rewrite N1, N2, N3. split; [|split].
    + intros A1 A2. destruct I5 as (-> & ->); auto.
    + intros j Hj Ej Tj. exfalso. assert (E : a = none (y_plug s p)) by (destruct Hj as [Hj|Hj]; [destruct I1; congruence|auto]).
      destruct Hs as [Hs|[Hs|(i & Ei & Ki)]].
      * pose proof (entry_range _ _ _ _ Ej). lia.
      * auto.
      * assert (i = j) by (destruct Ej, Ei; congruence). subst i. apply I2 in Ki. destruct Ki as [Ki|(_ & Ki)]; auto.
    + intros Hj _. assert (E : a = none (y_plug s p)) by (destruct Hj as [Hj|Hj]; [destruct I1; congruence|auto]).
      split; [exact E|]. split; [apply Gone; [exact V'|congruence]|]. split.
      * intros i Ei. pose proof (entry_range _ _ _ _ Ei) as Hr. destruct I6 as (I6 & i' & Ei' & I7).
        -- lia. -- destruct Hj; [right; assumption|left; congruence].
        -- split; [|exact I6]. replace i with i'; [exact I7|]. destruct Ei, Ei'; congruence.
      * intros E2. apply I5. left. congruence.
  - destruct Hnow as (N1 & N2 & N3 & N4 & N5 & N6). destruct (half_inv _ _ _ _ _ _ _ _ V Hf) as (I1 & I2 & I3 & I4 & I5 & I6). cbv zeta in *.
    split; [reflexivity|]. split; [exact N4|]. split; [exact N5|]. rewrite N1, N2, N3. split; [|split].
    + intros A1 A2. exfalso. apply A1. rewrite <- (I3 A2). exact Ea.
    + intros j _ Ej _. assert (i = j) by (destruct Ej, En; congruence). subst j.
      repeat split. unfold holds. change (plugs_of s' i = Some p). rewrite N6, Nat.eqb_refl. reflexivity.
    + intros _ [Hc|(j & Ej & Tj)]; exfalso.
      * pose proof (entry_range _ _ _ _ En). lia.
      * assert (i = j) by (destruct Ej, En; congruence). subst j. assert (K i <> None) by (apply I2; left; exact Tj). congruence.
Qed.

(** ** C103: the direct request *)

Theorem C103_direct_join s p node i : reach s -> let g := y_plug s p in let s' := fst (update s p node) in let g' := y_plug s' p in
  g_disable g = false -> entry s p (g_direct g) i -> free s i ->
  snd (update s p node) = false /\ g_active g' = g_direct g /\ holds s' i p /\ g_node g' = k_n0 (y_sock s i) /\
  g_conn g' = none g /\ g_disc g' = none g.
Proof.
  intros R. cbv zeta. intros Hd En Fr. pose proof (reach_all s R) as (Vs & Hh). pose proof (Vs p) as V.
  destruct (update_run s p node V) as (O & V' & Rn).
  pose proof (entry_range _ _ _ _ En) as Hr. pose proof V as (_ & Ha & He & _).
  assert (Hna : g_direct (y_plug s p) <> g_active (y_plug s p)).
  { intros E. assert (holds s i p) by (apply (He _ _ En); congruence). unfold holds, free in *. congruence. }
  assert (On : direct_on (y_plug s p) = true) by (apply direct_on_spec; repeat split; auto; lia).
  assert (Ad : asked_disc (y_plug s p) = g_active (y_plug s p)) by (unfold asked_disc; now rewrite On).
  assert (Ac : asked_conn s (y_plug s p) = g_direct (y_plug s p)).
  { unfold asked_conn. rewrite On. replace (g_direct (y_plug s p) =? none (y_plug s p)) with false by (symmetry; apply Z.eqb_neq; lia).
    cbn [negb andb]. rewrite (entry_get _ _ _ _ En). destruct (k_has (y_sock s i)) eqn:E; [|reflexivity].
    apply Hh in E. unfold free in Fr. congruence. }
  set (s' := fst (update s p node)) in *. clearbody s'.
  inversion Rn as [D1 D2 D3 Hnow Ee|K a n l Hf Ea C1 C2 Hnow Ee|K a n l Hf Hs Hnow Ee|K a n l j Hf Ea Ej Ki Hnow Ee];
    cbv zeta in *; rewrite ?Ad, ?Ac in *.
  - exfalso. lia.
  - exfalso. lia.
  - exfalso. destruct (half_inv _ _ _ _ _ _ _ _ V Hf) as (I1 & I2 & I3 & I4 & I5 & I6). cbv zeta in *.
    destruct Hs as [Hs|[Hs|(j & Ej & Kj)]]; [lia|auto|].
    assert (i = j) by (destruct Ej, En; congruence). subst j. apply I2 in Kj.
    unfold taken, holds, free in *. destruct Kj as [(q & _ & Kj)|(Kj & _)]; congruence.
  - destruct Hnow as (N1 & N2 & N3 & N4 & N5 & N6). assert (i = j) by (destruct Ej, En; congruence). subst j.
    repeat split; auto. unfold holds. change (plugs_of s' i = Some p). rewrite N6, Nat.eqb_refl. reflexivity.
Qed.

(** To a socket that another plug is in, or to none: the plug is left out of any. *)
Theorem C103_direct_leave s p node : reach s -> let g := y_plug s p in let s' := fst (update s p node) in let g' := y_plug s' p in
  g_disable g = false -> g_direct g <> g_active g -> g_conn g = none g ->
  g_direct g = none g \/ (exists i, entry s p (g_direct g) i /\ taken s p i) ->
  snd (update s p node) = false /\ g_active g' = none g /\ (forall i, ~ holds s' i p) /\
  (forall i, holds s i p -> g_node g' = k_n1 (y_sock s i)) /\ (g_active g = none g -> g_node g' = node).
Proof.
  intros R. cbv zeta. intros Hd Hne Hc Ht. pose proof (reach_all s R) as (Vs & Hh). pose proof (Vs p) as V.
  destruct (update_run s p node V) as (O & V' & Rn). pose proof V as (_ & Ha & He & _).
  assert (Hr : 0 <= g_direct (y_plug s p) <= none (y_plug s p)).
  { destruct Ht as [->|(i & En & _)]; [unfold none; lia|]. pose proof (entry_range _ _ _ _ En). lia. }
  assert (On : direct_on (y_plug s p) = true) by (apply direct_on_spec; repeat split; auto; lia).
  assert (Ad : asked_disc (y_plug s p) = g_active (y_plug s p)) by (unfold asked_disc; now rewrite On).
  assert (Ac : asked_conn s (y_plug s p) = none (y_plug s p)).
  { unfold asked_conn. rewrite On, Hc. destruct (Z.eqb_spec (g_direct (y_plug s p)) (none (y_plug s p))) as [|Hn]; [reflexivity|].
    cbn [negb andb]. destruct Ht as [Ht|(i & En & q & Hq & Hi)]; [congruence|]. rewrite (entry_get _ _ _ _ En).
    replace (k_has (y_sock s i)) with true; [reflexivity|]. symmetry. apply Hh. unfold holds in Hi. congruence. }
  assert (Gone : forall t, view_ok t p -> g_active (y_plug t p) = none (y_plug t p) -> forall i, ~ holds t i p).
  { intros t Vt E i Hi. rewrite view_held, E in Vt. pose proof (entry_range _ _ _ _ (held_unique _ _ _ _ Vt Hi)). lia. }
  pose proof (none_list _ _ (proj1 (proj2 O))) as Nn.
  set (s' := fst (update s p node)) in *. clearbody s'.
  inversion Rn as [D1 D2 D3 Hnow Ee|K a n l Hf Ea C1 C2 Hnow Ee|K a n l Hf Hs Hnow Ee|K a n l j Hf Ea Ej Ki Hnow Ee];
    cbv zeta in *; rewrite ?Ad, ?Ac in *.
  - exfalso. lia.
  - exfalso. lia.
  - destruct Hnow as (N1 & N2 & N3 & N4 & N5 & N6). destruct (half_inv _ _ _ _ _ _ _ _ V Hf) as (I1 & I2 & I3 & I4 & I5 & I6). cbv zeta in *.
    pose proof (I4 eq_refl) as E. split; [reflexivity|]. split; [congruence|]. split; [apply Gone; [exact V'|congruence]|].
    rewrite N2. split.
    + intros i Hi. rewrite view_held in V. pose proof (held_unique _ _ _ _ V Hi) as Ei. pose proof (entry_range _ _ _ _ Ei) as Hri.
      destruct I6 as (_ & i' & Ei' & ->); [lia|auto|]. replace i' with i; [reflexivity|]. destruct Ei, Ei'; congruence.
    + intros E2. apply I5. left. congruence.
  - exfalso. pose proof (entry_range _ _ _ _ Ej). lia.
Qed.

(** ** C104: a request that names no socket *)

Lemma direct_kept s p node : let g := y_plug s p in let g' := y_plug (fst (update s p node)) p in
  g_disable g' = g_disable g /\ g_direct g' = if g_disable g then -99 else g_direct g.
Proof.
  assert (A : forall t, g_disable (y_plug (update_active t p) p) = g_disable (y_plug t p) /\
     g_direct (y_plug (update_active t p) p) = g_direct (y_plug t p)) by (intros t; split; apply (update_active_rest t p)).
  assert (C : forall t, g_disable (y_plug (fst (process_conn t p)) p) = g_disable (y_plug t p) /\
     g_direct (y_plug (fst (process_conn t p)) p) = g_direct (y_plug t p)).
  { intros t. unfold process_conn, request_connection. cbv zeta.
    destruct (negb (none (y_plug t p) =? g_conn (y_plug t p))); [destruct (negb (none (y_plug t p) =? g_active (y_plug t p)));
      [|destruct (get_socket (y_plug t p) (g_conn (y_plug t p))) as [i|]; [destruct (k_plug (y_sock t i))|]]|];
    cbn [fst put_plug put_sock y_plug]; rewrite ?setn_same; split; reflexivity. }
  assert (D : forall t, g_disable (y_plug (fst (process_disc t p)) p) = g_disable (y_plug t p) /\
     g_direct (y_plug (fst (process_disc t p)) p) = g_direct (y_plug t p)).
  { intros t. unfold process_disc, request_disconnection. cbv zeta.
    destruct (negb (none (y_plug t p) =? g_disc (y_plug t p))); [destruct (_ && _);
      [|destruct (get_socket (y_plug t p) (g_disc (y_plug t p))) as [i|]; [destruct (is_connected t i p)|]]|];
    cbn [fst put_plug put_sock y_plug]; rewrite ?setn_same; split; reflexivity. }
  assert (B : forall t, g_disable (y_plug (process_direct t p) p) = g_disable (y_plug t p) /\
     g_direct (y_plug (process_direct t p) p) = if g_disable (y_plug t p) then -99 else g_direct (y_plug t p)).
  { intros t. unfold process_direct. cbv zeta. destruct (g_disable (y_plug t p)) eqn:E; cbn [with_direct g_direct].
    - cbn [Z.leb Z.compare andb]. cbn [put_plug y_plug]. rewrite setn_same. split; [exact E|reflexivity].
    - cbn [put_plug y_plug]. rewrite setn_same. destruct (_ && _ && _); [|auto]. destruct (negb _); [|auto].
      destruct (get_socket _ _) as [i|]; [destruct (k_has _)|]; split; try reflexivity; exact E. }
  cbv zeta. unfold update. cbv zeta. set (t := put_plug s p (with_node (y_plug s p) node)).
  assert (T : g_disable (y_plug t p) = g_disable (y_plug s p) /\ g_direct (y_plug t p) = g_direct (y_plug s p)).
  { unfold t. cbn [put_plug y_plug]. rewrite setn_same. split; reflexivity. }
  destruct T as (T1 & T2). rewrite <- T1, <- T2. destruct (B t) as (B1 & B2). rewrite <- B2, <- B1.
  set (u := process_direct t p). destruct (D u) as (D1 & D2). rewrite <- D1, <- D2.
  destruct (process_disc u p) as [v e]. cbn [fst]. destruct e; [split; reflexivity|].
  destruct (A v) as (A1 & A2). rewrite <- A1, <- A2. destruct (C (update_active v p)) as (C1 & C2). rewrite <- C1, <- C2.
  destruct (process_conn (update_active v p) p) as [w e]. cbn [fst]. destruct e; [split; reflexivity|]. cbn [fst]. apply A.
Qed.

(** The plug throws each time it is updated from then on, whatever the nodes. *)
Fixpoint updates (s : sys) (p : nat) (nodes : list Z) : sys * list bool :=
  match nodes with
  | [] => (s, [])
  | n :: l => let (s, e) := update s p n in let (s, r) := updates s p l in (s, e :: r)
  end.
Definition bad_conn (g : plug) : Prop :=
  no_direct g /\ g_active g = none g /\ g_disc g = none g /\ (g_conn g < 0 \/ none g < g_conn g).
Definition bad_disc (g : plug) : Prop :=
  no_direct g /\ g_active g = none g /\ (g_disc g < 0 \/ none g < g_disc g).

Lemma no_direct_kept s p node : g_active (y_plug (fst (update s p node)) p) = g_active (y_plug s p) ->
  g_list (y_plug (fst (update s p node)) p) = g_list (y_plug s p) ->
  no_direct (y_plug s p) -> no_direct (y_plug (fst (update s p node)) p).
Proof.
  intros Ea El H. destruct (direct_kept s p node) as (E1 & E2). cbv zeta in *. unfold no_direct in *.
  rewrite E1, E2, Ea, (none_list _ _ El). destruct (g_disable (y_plug s p)); [auto|exact H].
Qed.

Lemma bad_step s p node : all_ok s -> bad_conn (y_plug s p) \/ bad_disc (y_plug s p) ->
  snd (update s p node) = true /\ all_ok (fst (update s p node)) /\
  (bad_conn (y_plug (fst (update s p node)) p) \/ bad_disc (y_plug (fst (update s p node)) p)) /\
  (forall i, k_plug (y_sock (fst (update s p node)) i) = k_plug (y_sock s i)).
Proof.
  intros A B. pose proof (proj1 A p) as V. destruct (update_run s p node V) as (O & V' & Rn).
  assert (Nd : no_direct (y_plug s p)) by (destruct B as [B|B]; apply B).
  assert (Ea : g_active (y_plug s p) = none (y_plug s p)) by (destruct B as [B|B]; apply B).
  pose proof (no_direct_off _ Nd) as Off.
  assert (Hpos : 0 <= none (y_plug s p)) by (unfold none; lia).
  assert (Ad : asked_disc (y_plug s p) = g_disc (y_plug s p)) by (unfold asked_disc; now rewrite Off).
  assert (Ac : asked_conn s (y_plug s p) = g_conn (y_plug s p)) by (unfold asked_conn; now rewrite Off).
  pose proof (no_direct_kept s p node) as Nk. pose proof (onlyp_all p s _ O A V') as A'.
  pose proof (proj1 (proj2 O)) as El. pose proof (none_list _ _ El) as Nn.
  set (s' := fst (update s p node)) in *. clearbody s'.
  inversion Rn as [D1 D2 D3 Hnow Ee|K a n l Hf Ea' C1 C2 Hnow Ee|K a n l Hf Hs Hnow Ee|K a n l j Hf Ea' Ej Ki Hnow Ee];
    cbv zeta in *; rewrite ?Ad, ?Ac in *.
  - destruct Hnow as (N1 & N2 & N3 & N4 & N5 & N6). split; [reflexivity|]. split; [exact A'|]. split; [|exact N6].
    right. split; [apply Nk; congruence|]. rewrite Nn, N1, N5. split; [exact Ea|]. lia.
  - destruct Hnow as (N1 & N2 & N3 & N4 & N5 & N6). split; [reflexivity|]. split; [exact A'|].
    destruct B as [(_ & _ & B1 & B2)|(_ & _ & B1)].
    + inversion Hf; subst; cbv zeta in *; [|congruence]. split; [|exact N6].
      left. split; [apply Nk; congruence|]. rewrite Nn, N1, N4, N5. split; [congruence|]. split; [congruence|exact B2].
    + exfalso. inversion Hf; subst; cbv zeta in *; [lia|].
      match goal with H : entry _ _ _ _ |- _ => apply entry_range in H; lia end.
  - exfalso. destruct B as [(_ & _ & B1 & B2)|(_ & _ & B1)].
    + destruct Hs as [Hs|[Hs|(i & Ei & _)]]; [lia| |apply entry_range in Ei; lia].
      inversion Hf; subst; cbv zeta in *; congruence.
    + inversion Hf; subst; cbv zeta in *; [lia|].
      match goal with H : entry _ _ _ _ |- _ => apply entry_range in H; lia end.
  - exfalso. destruct B as [(_ & _ & B1 & B2)|(_ & _ & B1)].
    + apply entry_range in Ej; lia.
    + inversion Hf; subst; cbv zeta in *; [lia|].
      match goal with H : entry _ _ _ _ |- _ => apply entry_range in H; lia end.
Qed.

Theorem C104_never_again s p nodes : reach s -> bad_conn (y_plug s p) \/ bad_disc (y_plug s p) ->
  let (s', r) := updates s p nodes in
  Forall (fun e => e = true) r /\ length r = length nodes /\ (forall i, k_plug (y_sock s' i) = k_plug (y_sock s i)).
Proof.
  intros R B. pose proof (reach_all s R) as A. clear R. revert s A B. induction nodes as [|n l IH]; intros s A B; cbn [updates].
  - repeat split. constructor.
  - destruct (bad_step s p n A B) as (E & A' & B' & K). destruct (update s p n) as [s1 e]. cbn [fst snd] in *. subst e.
    specialize (IH s1 A' B'). destruct (updates s1 p l) as [s2 r]. destruct IH as (F & L & K2).
    split; [constructor; auto|]. split; [cbn; congruence|]. intros i. now rewrite K2, K.
Qed.

(** ** C105: the jumper's ports *)

Lemma belongs_run s p node d : view_ok s p -> belongs s p d node ->
  belongs (fst (update s p node)) p d (g_node (y_plug (fst (update s p node)) p)).
Proof.
  intros V (B1 & B2). destruct (update_run s p node V) as (O & V' & Rn).
  pose proof (proj1 (proj2 O)) as El. pose proof (none_list _ _ El) as Nn.
  assert (N01 : forall i, k_n0 (y_sock (fst (update s p node)) i) = k_n0 (y_sock s i) /\
     k_n1 (y_sock (fst (update s p node)) i) = k_n1 (y_sock s i)) by apply O.
  set (s' := fst (update s p node)) in *. clearbody s'.
  assert (En' : forall a i, entry s' p a i <-> entry s p a i) by (intros; unfold entry; rewrite El; tauto).
  assert (Half : forall K a n l, half s p node (asked_disc (y_plug s p)) K a n l ->
     g_active (y_plug s' p) = a -> g_node (y_plug s' p) = n -> g_last (y_plug s' p) = l -> belongs s' p d (g_node (y_plug s' p))).
  { intros K a n l Hf E1 E2 E3. unfold belongs. rewrite E1, E2, E3, Nn. inversion Hf; subst.
    - split; [intros i Hi; rewrite (proj1 (N01 i)); apply B1, En', Hi|].
      intros Ea. destruct (B2 Ea) as (B3 & B4). split; [|exact B4]. intros i Hi. rewrite (proj2 (N01 i)). apply B3, En', Hi.
    - split; [intros i' Hi; apply En', entry_range in Hi; lia|]. intros _. split; [|congruence].
      intros i' Hi. rewrite (proj2 (N01 i')). f_equal. apply En' in Hi.
      match goal with H : entry s p _ i |- _ => destruct H, Hi; congruence end. }
  inversion Rn as [D1 D2 D3 Hnow Ee|K a n l Hf Ea' C1 C2 Hnow Ee|K a n l Hf Hs Hnow Ee|K a n l j Hf Ea' Ej Ki Hnow Ee];
    destruct Hnow as (N1 & N2 & N3 & N4 & N5 & N6).
  - unfold belongs. rewrite N1, N2, N3, Nn.
    split; [intros i Hi; rewrite (proj1 (N01 i)); apply B1, En', Hi|].
    intros Ea. destruct (B2 Ea) as (B3 & B4). split; [|exact B4]. intros i Hi. rewrite (proj2 (N01 i)). apply B3, En', Hi.
  - exact (Half _ _ _ _ Hf N1 N2 N3).
  - exact (Half _ _ _ _ Hf N1 N2 N3).
  - unfold belongs. rewrite N1, N2, N3, Nn. split.
    + intros i Hi. apply En' in Hi. rewrite (proj1 (N01 i)). f_equal. destruct Ej, Hi; congruence.
    + intros E. apply entry_range in Ej. lia.
Qed.

(** A plug told the node it belongs on is on the node it belongs on afterwards,
    even if the update throws. *)
Theorem C105_plug_node s p node d : reach s -> belongs s p d node ->
  belongs (fst (update s p node)) p d (g_node (y_plug (fst (update s p node)) p)).
Proof. intros R. apply belongs_run. now apply reach_all. Qed.

(** The sockets are on nodes of the network. *)
Definition on_nodes (ground : Z) (s : sys) : Prop :=
  forall i, 0 <= k_n0 (y_sock s i) <= ground /\ 0 <= k_n1 (y_sock s i) <= ground.

Lemma node_range ground s p node : view_ok s p -> on_nodes ground s -> 0 <= node <= ground ->
  0 <= g_node (y_plug (fst (update s p node)) p) <= ground.
Proof.
  intros V On Hn. destruct (update_run s p node V) as (_ & _ & Rn).
  assert (Half : forall K a n l, half s p node (asked_disc (y_plug s p)) K a n l -> 0 <= n <= ground).
  { intros K a n l Hf. inversion Hf; subst; [exact Hn|apply On]. }
  inversion Rn as [D1 D2 D3 Hnow Ee|K a n l Hf Ea' C1 C2 Hnow Ee|K a n l Hf Hs Hnow Ee|K a n l j Hf Ea' Ej Ki Hnow Ee];
    destruct Hnow as (N1 & N2 & N3 & N4 & N5 & N6); rewrite N2; try (exact (Half _ _ _ _ Hf)); [exact Hn|apply On].
Qed.

Lemma set_port0_spec ground j n : j_lock j = false -> 0 <= n <= ground ->
  j_m0 (set_port0 ground j n) = n /\ j_m1 (set_port0 ground j n) = j_m1 j /\ j_lock (set_port0 ground j n) = false /\
  j_p0 (set_port0 ground j n) = j_p0 j /\ j_p1 (set_port0 ground j n) = j_p1 j /\
  (n <> j_m0 j -> j_upd (set_port0 ground j n) = true) /\ (j_upd j = true -> j_upd (set_port0 ground j n) = true).
Proof.
  intros Hl Hn. unfold set_port0. rewrite Hl.
  replace (-1 <? n) with true by (symmetry; apply Z.ltb_lt; lia).
  replace (n <=? ground) with true by (symmetry; apply Z.leb_le; lia).
  destruct (Z.eqb_spec n (j_m0 j)); cbn; repeat split; auto; congruence.
Qed.
Lemma set_port1_spec ground j n : j_lock j = false -> 0 <= n <= ground ->
  j_m1 (set_port1 ground j n) = n /\ j_m0 (set_port1 ground j n) = j_m0 j /\ j_lock (set_port1 ground j n) = false /\
  j_p0 (set_port1 ground j n) = j_p0 j /\ j_p1 (set_port1 ground j n) = j_p1 j /\
  (n <> j_m1 j -> j_upd (set_port1 ground j n) = true) /\ (j_upd j = true -> j_upd (set_port1 ground j n) = true).
Proof.
  intros Hl Hn. unfold set_port1. rewrite Hl.
  replace (-1 <? n) with true by (symmetry; apply Z.ltb_lt; lia).
  replace (n <=? ground) with true by (symmetry; apply Z.leb_le; lia).
  destruct (Z.eqb_spec n (j_m1 j)); cbn; repeat split; auto; congruence.
Qed.

Lemma belongs_other p q s s' d n : onlyp p s s' -> q <> p -> belongs s q d n -> belongs s' q d n.
Proof.
  intros (Q & _ & N & _) Hq (B1 & B2). unfold belongs, entry in *. rewrite (Q q Hq). split.
  - intros i Hi. rewrite (proj1 (N i)). auto.
  - intros E. destruct (B2 E) as (B3 & B4). split; [|exact B4]. intros i Hi. rewrite (proj2 (N i)). auto.
Qed.

(** The jumper's step: both ports go where their plugs belong. *)
Theorem C105_ports ground s j p0 p1 d0 d1 s' j' : reach s -> on_nodes ground s ->
  j_p0 j = Some p0 -> j_p1 j = Some p1 -> p0 <> p1 -> j_lock j = false ->
  0 <= j_m0 j <= ground -> 0 <= j_m1 j <= ground ->
  belongs s p0 d0 (j_m0 j) -> belongs s p1 d1 (j_m1 j) ->
  update_plugs ground s j = (s', j', false) ->
  belongs s' p0 d0 (j_m0 j') /\ belongs s' p1 d1 (j_m1 j') /\
  (j_m0 j' <> j_m0 j \/ j_m1 j' <> j_m1 j -> j_upd j' = true).
Proof.
  intros R On P0 P1 Hp Hl M0 M1 B0 B1 U. pose proof (reach_all s R) as A. unfold update_plugs in U. rewrite P0 in U.
  pose proof (belongs_run s p0 (j_m0 j) d0 (proj1 A p0) B0) as B0'.
  pose proof (node_range ground s p0 (j_m0 j) (proj1 A p0) On M0) as Hr0.
  destruct (update_run s p0 (j_m0 j) (proj1 A p0)) as (O & V & _).
  destruct (update s p0 (j_m0 j)) as [s1 e]. cbn [fst] in *.
  destruct e; [discriminate|].
  destruct (set_port0_spec ground j _ Hl Hr0) as (S1 & S2 & S3 & S4 & S5 & S6 & S7).
  rewrite S5, P1 in U. rewrite S2 in U.
  pose proof (onlyp_all p0 s s1 O A V) as A1.
  assert (On1 : on_nodes ground s1).
  { intros i. destruct O as (_ & _ & N & _). destruct (N i) as (-> & ->). apply On. }
  assert (B1' : belongs s1 p1 d1 (j_m1 j)) by (apply (belongs_other p0 p1 s); auto).
  pose proof (belongs_run s1 p1 (j_m1 j) d1 (proj1 A1 p1) B1') as B1''.
  pose proof (node_range ground s1 p1 (j_m1 j) (proj1 A1 p1) On1 M1) as Hr1.
  destruct (update_run s1 p1 (j_m1 j) (proj1 A1 p1)) as (O' & _).
  destruct (update s1 p1 (j_m1 j)) as [s2 e]. cbn [fst] in *. inversion U. subst e. clear U. subst s'.
  destruct (set_port1_spec ground (set_port0 ground j (g_node (y_plug s1 p0))) _ S3 Hr1) as (T1 & T2 & T3 & T4 & T5 & T6 & T7).
  rewrite T1, T2, S1. split; [apply (belongs_other p1 p0 s1); auto|]. split; [exact B1''|].
  rewrite S2 in T6. intros [Hd|Hd]; auto.
Qed.

(** Restart: ports to their defaults, and the plugs find their way back. *)
Lemma restart_all s p : all_ok s -> all_ok (restart_requests s p).
Proof.
  intros A. unfold restart_requests. cbv zeta. apply put_plug_all; [| |exact A];
    destruct (negb (none (y_plug s p) =? g_active (y_plug s p))); reflexivity.
Qed.
Lemma restart_plug_run s p d : all_ok s -> no_direct (y_plug s p) -> 0 <= g_last (y_plug s p) <= none (y_plug s p) ->
  g_disc (y_plug s p) = (if g_active (y_plug s p) =? none (y_plug s p) then g_last (y_plug s p) else g_active (y_plug s p)) ->
  g_conn (y_plug s p) = g_active (y_plug s p) ->
  let s' := fst (update s p d) in
  snd (update s p d) = false /\ g_active (y_plug s' p) = g_active (y_plug s p) /\
  (forall i, k_plug (y_sock s' i) = k_plug (y_sock s i)) /\ belongs s' p d (g_node (y_plug s' p)).
Proof.
  intros A Nd Hl Ed Ec. cbv zeta. pose proof (proj1 A p) as V.
  destruct (update_run s p d V) as (O & V' & Rn). pose proof V as (ND & Ha & He & _).
  apply no_direct_off in Nd.
  assert (Ad : asked_disc (y_plug s p) = g_disc (y_plug s p)) by (unfold asked_disc; now rewrite Nd).
  assert (Ac : asked_conn s (y_plug s p) = g_conn (y_plug s p)) by (unfold asked_conn; now rewrite Nd).
  rewrite Ed in Ad. rewrite Ec in Ac.
  pose proof (proj1 (proj2 O)) as El. pose proof (none_list _ _ El) as Nn.
  assert (N01 : forall i, k_n0 (y_sock (fst (update s p d)) i) = k_n0 (y_sock s i) /\
     k_n1 (y_sock (fst (update s p d)) i) = k_n1 (y_sock s i)) by apply O.
  set (s' := fst (update s p d)) in *. clearbody s'.
  assert (En' : forall a i, entry s' p a i <-> entry s p a i) by (intros; unfold entry; rewrite El; tauto).
  inversion Rn as [D1 D2 D3 Hnow Ee|K a n l Hf Ea' C1 C2 Hnow Ee|K a n l Hf Hs Hnow Ee|K a n l j Hf Ea' Ej Ki Hnow Ee];
    rewrite ?Ad, ?Ac in *.
  - exfalso. destruct (Z.eqb_spec (g_active (y_plug s p)) (none (y_plug s p))); lia.
  - exfalso. lia.
  - destruct Hnow as (N1 & N2 & N3 & N4 & N5 & N6). destruct (half_inv _ _ _ _ _ _ _ _ V Hf) as (I1 & I2 & I3 & I4 & I5 & I6). cbv zeta in *.
    destruct (Z.eqb_spec (g_active (y_plug s p)) (none (y_plug s p))) as [Ea|Ea].
    2:{ exfalso. pose proof (I4 eq_refl). destruct Hs as [Hs|[Hs|(i & Ei & Ki)]]; [auto|auto|]. apply I2 in Ki.
        assert (Hi : holds s i p) by (apply (He _ _ Ei); reflexivity).
        destruct Ki as [(q & Hq & Ki)|(_ & Ki)]; [unfold holds in *; congruence|auto]. }
    assert (Ea2 : a = none (y_plug s p)) by (destruct I1; congruence).
    split; [reflexivity|]. split; [congruence|]. split.
    { intros i. change (plugs_of s' i = plugs_of s i). rewrite N6. inversion Hf; subst; [reflexivity|].
      destruct (is_connected s i p) eqn:Ei; [|reflexivity]. apply is_connected_spec in Ei. exfalso.
      rewrite view_held, Ea in V. apply (held_unique _ _ _ _ V), entry_range in Ei. lia. }
    unfold belongs. rewrite N1, N2, N3, Nn, Ea2. split; [intros i Hi; apply En', entry_range in Hi; lia|].
    intros _. destruct (Z.eq_dec (g_last (y_plug s p)) (none (y_plug s p))) as [El2|El2].
    + destruct I5 as (-> & ->); [auto|]. split; [|auto]. intros i Hi. apply En', entry_range in Hi. lia.
    + destruct I6 as (-> & i & Ei & ->); [auto|auto|]. split; [|congruence]. intros i' Hi. apply En' in Hi.
      rewrite (proj2 (N01 i')). f_equal. destruct Ei, Hi; congruence.
  - destruct Hnow as (N1 & N2 & N3 & N4 & N5 & N6). destruct (half_inv _ _ _ _ _ _ _ _ V Hf) as (I1 & I2 & I3 & I4 & I5 & I6). cbv zeta in *.
    pose proof (entry_range _ _ _ _ Ej) as Hr.
    assert (Hj : holds s j p) by (apply (He _ _ Ej); reflexivity).
    destruct (Z.eqb_spec (g_active (y_plug s p)) (none (y_plug s p))) as [Ea|Ea]; [lia|].
    split; [reflexivity|]. split; [exact N1|]. split.
    + intros i. change (plugs_of s' i = plugs_of s i). rewrite N6. destruct (Nat.eqb_spec i j) as [->|Hne]; [symmetry; exact Hj|].
      inversion Hf; subst; [reflexivity|]. destruct (is_connected s i p) eqn:Ei; [|reflexivity].
      apply is_connected_spec in Ei. exfalso. rewrite view_held in V. apply (held_unique _ _ _ _ V) in Ei. destruct Ei, Ej; congruence.
    + unfold belongs. rewrite N1, N2, N3, Nn. split; [|lia]. intros i Hi. apply En' in Hi. rewrite (proj1 (N01 i)). f_equal.
      destruct Ej, Hi; congruence.
Qed.

Lemma restart_fields s p : let g := y_plug s p in let g' := y_plug (restart_requests s p) p in
  g_list g' = g_list g /\ g_active g' = g_active g /\ g_last g' = g_last g /\ g_direct g' = g_direct g /\ g_disable g' = g_disable g /\
  g_disc g' = (if g_active g =? none g then g_last g else g_active g) /\ g_conn g' = g_active g.
Proof.
  cbv zeta. unfold restart_requests. cbv zeta. cbn [put_plug y_plug]. rewrite setn_same, (Z.eqb_sym (g_active _)).
  destruct (Z.eqb_spec (none (y_plug s p)) (g_active (y_plug s p))); cbn; auto 10.
Qed.

(** Sockets may have been moved in between: the ports are where the sockets now are. *)
Theorem C105_restart ground s j p0 p1 d0 d1 : reach s -> on_nodes ground s ->
  j_p0 j = Some p0 -> j_p1 j = Some p1 -> p0 <> p1 -> j_lock j = false -> 0 <= d0 <= ground -> 0 <= d1 <= ground ->
  (forall p, p = p0 \/ p = p1 -> no_direct (y_plug s p) /\ 0 <= g_last (y_plug s p) <= none (y_plug s p)) ->
  let '(s', j', e) := restart_jumper ground d0 d1 s j in
  e = false /\ (forall i, k_plug (y_sock s' i) = k_plug (y_sock s i)) /\
  g_active (y_plug s' p0) = g_active (y_plug s p0) /\ g_active (y_plug s' p1) = g_active (y_plug s p1) /\
  belongs s' p0 d0 (j_m0 j') /\ belongs s' p1 d1 (j_m1 j').
Proof.
  intros R On P0 P1 Hp Hl D0 D1 Hg. pose proof (reach_all s R) as A. unfold restart_jumper. cbv zeta.
  set (j0 := mkjumper _ _ _ _ _ _ _ _).
  assert (L0 : j_lock j0 = false) by exact Hl.
  destruct (set_port0_spec ground j0 d0 L0 D0) as (S1 & S2 & S3 & S4 & S5 & _ & _).
  destruct (set_port1_spec ground (set_port0 ground j0 d0) d1 S3 D1) as (T1 & T2 & T3 & T4 & T5 & _ & _).
  set (j1 := set_port1 ground (set_port0 ground j0 d0) d1) in *. clearbody j1.
  assert (Q0 : j_p0 j1 = Some p0) by (rewrite T4, S4; exact P0). assert (Q1 : j_p1 j1 = Some p1) by (rewrite T5, S5; exact P1).
  assert (Z0 : j_m0 j1 = d0) by congruence. clear S1 S2 S3 S4 S5 T2 T4 T5 j0 L0.
  rewrite Q0, Q1. cbn [restart_plug].
  set (r := restart_requests (restart_requests s p0) p1).
  assert (Ar : all_ok r) by (apply restart_all, restart_all, A).
  assert (Rp : forall p, p = p0 \/ p = p1 -> let g := y_plug s p in let g' := y_plug r p in
    g_list g' = g_list g /\ g_active g' = g_active g /\ g_last g' = g_last g /\ g_direct g' = g_direct g /\ g_disable g' = g_disable g /\
    g_disc g' = (if g_active g =? none g then g_last g else g_active g) /\ g_conn g' = g_active g).
  { intros p [->| ->]; cbv zeta; unfold r.
    - replace (y_plug (restart_requests (restart_requests s p0) p1) p0) with (y_plug (restart_requests s p0) p0).
      + apply restart_fields.
      + unfold restart_requests at 2. cbv zeta. cbn [put_plug y_plug]. rewrite setn_other by exact Hp. reflexivity.
    - pose proof (restart_fields (restart_requests s p0) p1) as F. cbv zeta in F.
      replace (y_plug (restart_requests s p0) p1) with (y_plug s p1) in F; [exact F|].
      unfold restart_requests. cbv zeta. cbn [put_plug y_plug]. rewrite setn_other by auto. reflexivity. }
  assert (Kr : y_sock r = y_sock s) by reflexivity.
  clearbody r.
  assert (Onr : on_nodes ground r) by (intros i; rewrite Kr; apply On).
  assert (Hyp : forall p, p = p0 \/ p = p1 -> no_direct (y_plug r p) /\ 0 <= g_last (y_plug r p) <= none (y_plug r p) /\
    g_disc (y_plug r p) = (if g_active (y_plug r p) =? none (y_plug r p) then g_last (y_plug r p) else g_active (y_plug r p)) /\
    g_conn (y_plug r p) = g_active (y_plug r p)).
  { intros p Hpp. destruct (Rp p Hpp) as (E1 & E2 & E3 & E4 & E5 & E6 & E7). destruct (Hg p Hpp) as (G1 & G2).
    unfold no_direct. rewrite (none_list _ _ E1), E2, E3, E4, E5, E6, E7. auto. }
  unfold update_plugs. rewrite Q0, Z0.
  destruct (Hyp p0 (or_introl eq_refl)) as (H1 & H2 & H3 & H4).
  destruct (restart_plug_run r p0 d0 Ar H1 H2 H3 H4) as (U1 & U2 & U3 & U4). cbv zeta in *.
  pose proof (node_range ground r p0 d0 (proj1 Ar p0) Onr D0) as Nr0.
  destruct (update_run r p0 d0 (proj1 Ar p0)) as (O & V & _).
  destruct (update r p0 d0) as [s1 e]. cbn [fst snd] in *. subst e.
  destruct (set_port0_spec ground j1 _ T3 Nr0) as (S1 & S2 & S3 & S4 & S5 & _ & _).
  rewrite S5, Q1, S2, T1.
  pose proof (onlyp_all p0 r s1 O Ar V) as A1.
  assert (On1 : on_nodes ground s1).
  { intros i. destruct O as (_ & _ & N & _). destruct (N i) as (-> & ->). apply Onr. }
  assert (Ep : y_plug s1 p1 = y_plug r p1) by (apply O; auto).
  destruct (Hyp p1 (or_intror eq_refl)) as (H5 & H6 & H7 & H8). rewrite <- Ep in H5, H6, H7, H8.
  destruct (restart_plug_run s1 p1 d1 A1 H5 H6 H7 H8) as (W1 & W2 & W3 & W4). cbv zeta in *.
  pose proof (node_range ground s1 p1 d1 (proj1 A1 p1) On1 D1) as Nr1.
  destruct (update_run s1 p1 d1 (proj1 A1 p1)) as (O' & _).
  destruct (update s1 p1 d1) as [s2 e]. cbn [fst snd] in *. subst e.
  destruct (set_port1_spec ground (set_port0 ground j1 (g_node (y_plug s1 p0))) _ S3 Nr1) as (X1 & X2 & _).
  split; [reflexivity|]. split; [intros i; rewrite W3, U3, Kr; reflexivity|].
  split; [|split; [|split]].
  - destruct O' as (Q & _). rewrite (Q p0 Hp), U2. apply (Rp p0 (or_introl eq_refl)).
  - rewrite W2, Ep. apply (Rp p1 (or_intror eq_refl)).
  - rewrite X2, S1. apply (belongs_other p1 p0 s1); auto.
  - rewrite X1. exact W4.
Qed.

(** ** C106: what conducts *)

Theorem C106_jumper s j p0 p1 : reach s -> j_p0 j = Some p0 -> j_p1 j = Some p1 ->
  (blocked s j = false <->
     j_m0 j <> j_m1 j /\ (j_seal0 j = true -> exists i, holds s i p0) /\ (j_seal1 j = true -> exists i, holds s i p1)).
Proof.
  intros R P0 P1.
  assert (Un : forall p, unplugged s (Some p) = false <-> exists i, holds s i p).
  { intros p. destruct (C100_plug s p R) as (Ha & He & Hn & _). cbv zeta in *. unfold unplugged. rewrite Z.eqb_neq. split.
    - intros H. destruct (has_entry s p (g_active (y_plug s p))) as (i & Ei); [lia|]. exists i. now apply (He _ _ Ei).
    - intros (i & Hi) E. symmetry in E. exact (proj1 Hn E i Hi). }
  unfold blocked. rewrite P0, P1, !orb_false_iff, !andb_false_iff, Z.eqb_neq, !Un.
  destruct (j_seal0 j), (j_seal1 j); intuition congruence.
Qed.
Theorem C106_socket s i seal : reach s -> (socket_blocked seal (y_sock s i) = true <-> seal = true \/ exists p, holds s i p).
Proof.
  intros R. unfold socket_blocked, holds. destruct seal, (k_plug (y_sock s i)) as [q|]; cbn; split; auto; try discriminate.
  - intros _. right. eauto.
  - intros [H|(p & H)]; discriminate.
Qed.

(** ** Witnesses: two plugs, two sockets on nodes 0 and 1, the ambient on node 2,
    ground 3 *)

Definition w_start : sys :=
  mksys (fun _ => mkplug [0; 1]%nat 3 (-99) false 2 2 2 2) (fun i => mksocket None false (if Nat.eqb i 0 then 0 else 1) 2).
Lemma w_start_reach : reach w_start.
Proof.
  apply re_start. split; [intros; split; reflexivity|]. intros p. split; [|reflexivity].
  repeat constructor; cbn; intuition congruence.
Qed.
Definition w_init (s : sys) (p : nat) (sock : Z) : sys := match initialize s p 3 sock with Some s => s | None => s end.
Lemma w_init_reach s p sock : reach s -> reach (w_init s p sock).
Proof. intros H. unfold w_init. destruct (initialize s p 3 sock) eqn:E; [exact (re_init _ _ _ _ _ H E)|exact H]. Qed.
Definition w_req (s : sys) (p : nat) (direct conn disc : Z) : sys :=
  put_plug s p (with_disc (with_conn (with_direct (y_plug s p) direct) conn) disc).
Lemma w_req_reach s p a b c : reach s -> reach (w_req s p a b c).
Proof. intros H. apply re_request; [exact H|]. repeat split. Qed.
(** Plug 0 in socket 0. *)
Definition w_one : sys := w_init w_start 0 0.
(** And plug 1 in socket 1. *)
Definition w_two : sys := w_init w_one 1 1.
Lemma w_one_reach : reach w_one. Proof. apply w_init_reach, w_start_reach. Qed.
Lemma w_two_reach : reach w_two. Proof. apply w_init_reach, w_one_reach. Qed.

Example C100_not_vacuous : holds w_two 0 0 /\ holds w_two 1 1 /\ g_active (y_plug w_two 0) = 0 /\ g_active (y_plug w_two 1) = 1 /\
  g_node (y_plug w_two 0) = 0 /\ g_node (y_plug w_two 1) = 1.
Proof. repeat split. Qed.

Ltac w_split := repeat (cbv zeta; unfold sane, entry, on_nodes; match goal with |- _ /\ _ => split end).

(** From socket 0 to socket 1 in one call. *)
Example C102_moves : let s := w_req w_one 0 (-99) 1 0 in let s' := fst (update s 0 0) in
  sane (y_plug s 0) /\ no_direct (y_plug s 0) /\ entry s 0 1 1 /\ ~ taken s 0 1 /\
  g_active (y_plug s' 0) = 1 /\ holds s' 1 0 /\ free s' 0 /\ g_node (y_plug s' 0) = 1.
Proof.
  cbv zeta. w_split; try reflexivity; try (cbn; lia).
  - right; left. cbn. lia.
  - intros (q & _ & H). discriminate H.
Qed.
(** Out of socket 0: the end is on the ambient node. *)
Example C102_leaves : let s' := fst (update (w_req w_one 0 (-99) 2 0) 0 0) in
  g_active (y_plug s' 0) = 2 /\ g_node (y_plug s' 0) = 2 /\ g_last (y_plug s' 0) = 0.
Proof. repeat split. Qed.
(** Into a socket that is taken: nothing happens, and the request is gone. *)
Example C102_taken : let s := w_req w_two 0 (-99) 1 2 in let s' := fst (update s 0 0) in
  taken s 0 1 /\ g_active (y_plug s' 0) = 0 /\ g_conn (y_plug s' 0) = 2.
Proof. cbv zeta. split; [exists 1%nat; split; [discriminate|reflexivity]|]. split; reflexivity. Qed.

(** Two plugs told to change places at once do not: the first finds the other's
    socket taken, drops its request and stays out. *)
Theorem C102_swap_refuted : exists s, reach s /\ sane (y_plug s 0) /\ sane (y_plug s 1) /\
  no_direct (y_plug s 0) /\ no_direct (y_plug s 1) /\
  g_disc (y_plug s 0) = g_active (y_plug s 0) /\ g_disc (y_plug s 1) = g_active (y_plug s 1) /\
  g_conn (y_plug s 0) = g_active (y_plug s 1) /\ g_conn (y_plug s 1) = g_active (y_plug s 0) /\
  g_list (y_plug s 0) = g_list (y_plug s 1) /\
  let s1 := fst (update s 0 0) in let s2 := fst (update s1 1 1) in
  g_active (y_plug s2 1) = g_active (y_plug s 0) /\
  (forall i, ~ holds s2 i 0) /\ g_conn (y_plug s2 0) = none (y_plug s2 0).
Proof.
  exists (w_req (w_req w_two 0 (-99) 1 0) 1 (-99) 0 1). split; [do 2 apply w_req_reach; apply w_two_reach|].
  w_split; try reflexivity; try (cbn; lia); try (right; left; cbn; lia).
  all: try (vm_compute; discriminate).
  intros [|[|i]] H; vm_compute in H; discriminate H.
Qed.

Example C103_joins : let s := w_req w_one 0 1 77 (-5) in let s' := fst (update s 0 0) in
  entry s 0 1 1 /\ free s 1 /\ g_active (y_plug s' 0) = 1 /\ g_node (y_plug s' 0) = 1.
Proof. cbv zeta. repeat split. lia. Qed.
Example C103_leaves : let s := w_req w_two 0 1 2 2 in let s' := fst (update s 0 0) in
  taken s 0 1 /\ g_active (y_plug s' 0) = 2 /\ g_node (y_plug s' 0) = 2.
Proof. cbv zeta. split; [exists 1%nat; split; [discriminate|reflexivity]|]. split; reflexivity. Qed.

(** The direct request is said to override the other two.  A direct request for no
    connection does not override a request to connect, *)
Theorem C103_direct_none_refuted : exists s p node, reach s /\ let g := y_plug s p in let s' := fst (update s p node) in
  g_disable g = false /\ g_direct g = none g /\ g_direct g <> g_active g /\ sane g /\
  snd (update s p node) = false /\ exists i, holds s' i p.
Proof.
  exists (w_req w_one 0 2 1 2), 0%nat, 0. split; [apply w_req_reach, w_one_reach|]. cbv zeta.
  w_split; try reflexivity; try (cbn; lia); try discriminate.
  exists 1%nat. reflexivity.
Qed.
(** nor a direct request for the socket it is in one to disconnect. *)
Theorem C103_direct_stay_refuted : exists s p node, reach s /\ let g := y_plug s p in let s' := fst (update s p node) in
  g_disable g = false /\ 0 <= g_direct g < none g /\ g_direct g = g_active g /\ sane g /\
  snd (update s p node) = false /\ forall i, ~ holds s' i p.
Proof.
  exists (w_req w_one 0 0 2 0), 0%nat, 0. split; [apply w_req_reach, w_one_reach|]. cbv zeta.
  w_split; try reflexivity; try (cbn; lia); try discriminate.
  intros [|[|i]] H; vm_compute in H; discriminate H.
Qed.

Example C104_not_vacuous : bad_conn (y_plug (w_req w_start 0 (-99) 7 2) 0) /\ bad_disc (y_plug (w_req w_start 0 (-99) 2 (-1)) 0).
Proof. split; (split; [right; left; cbn; lia|]); cbn; lia. Qed.

(** A jumper from plug 0 to plug 1. *)
Definition w_jumper (m0 m1 : Z) (lock : bool) : jumper := mkjumper m0 m1 lock (Some 0%nat) (Some 1%nat) true true false.

(** The exception leaves the plug out of the socket and the jumper on the socket's
    node, and the next ones keep it there. *)
Theorem C104_port_refuted : exists ground s j p, reach s /\ on_nodes ground s /\ j_p0 j = Some p /\ j_lock j = false /\
  belongs s p 3 (j_m0 j) /\
  let r1 := update_plugs ground s j in let s1 := fst (fst r1) in let j1 := snd (fst r1) in
  let r2 := update_plugs ground s1 j1 in let s2 := fst (fst r2) in let j2 := snd (fst r2) in
  snd r1 = true /\ snd r2 = true /\ (forall i, ~ holds s1 i p) /\ j_m0 j1 = j_m0 j /\ j_m0 j2 = j_m0 j /\
  ~ belongs s1 p 3 (j_m0 j1).
Proof.
  exists 3, (w_req w_two 0 (-99) 9 0), (w_jumper 0 1 false), 0%nat. split; [apply w_req_reach, w_two_reach|].
  split; [|split; [reflexivity|split; [reflexivity|split]]].
  - intros [|[|i]]; vm_compute; intuition discriminate.
  - split; [|discriminate]. intros i (_ & H). inversion H. reflexivity.
  - cbv zeta. split; [reflexivity|]. split; [reflexivity|]. split; [|split; [reflexivity|split; [reflexivity|]]].
    + intros [|[|i]] H; vm_compute in H; discriminate H.
    + intros (_ & B). destruct (B eq_refl) as (B1 & _). specialize (B1 0%nat). cbn in B1.
      assert (0 = 2) by (apply B1; split; [discriminate|reflexivity]). discriminate.
Qed.

(** With the port map locked the plug goes and the port stays; the plug is in one
    socket and the jumper conducts from the other's node. *)
Theorem C105_locked_refuted : exists ground s j p i, reach s /\ on_nodes ground s /\ j_p0 j = Some p /\ j_lock j = true /\
  belongs s p 3 (j_m0 j) /\
  let r := update_plugs ground s j in let s' := fst (fst r) in let j' := snd (fst r) in
  snd r = false /\ holds s' i p /\ blocked s' j' = false /\ j_m0 j' <> k_n0 (y_sock s' i).
Proof.
  exists 3, (w_req (w_init w_one 1 2) 0 (-99) 1 0), (mkjumper 0 3 true (Some 0%nat) None true true false), 0%nat, 1%nat.
  split; [apply w_req_reach, w_init_reach, w_one_reach|].
  split; [|split; [reflexivity|split; [reflexivity|split]]].
  - intros [|[|i]]; vm_compute; intuition discriminate.
  - split; [|discriminate]. intros i (_ & H). inversion H. reflexivity.
  - cbv zeta. repeat split. discriminate.
Qed.

(** A socket moved to another node while a plug is in it leaves the jumper behind. *)
Theorem C105_moved_refuted : exists ground s i k j p, reach s /\ moves (y_sock s i) k /\ on_nodes ground (put_sock s i k) /\
  j_p0 j = Some p /\ j_lock j = false /\ belongs s p 3 (j_m0 j) /\
  let r := update_plugs ground (put_sock s i k) j in let s' := fst (fst r) in let j' := snd (fst r) in
  snd r = false /\ holds s' i p /\ j_m0 j' <> k_n0 (y_sock s' i).
Proof.
  exists 3, w_two, 0%nat, (mksocket (Some 0%nat) true 3 2), (w_jumper 0 1 false), 0%nat.
  split; [apply w_two_reach|]. split; [split; reflexivity|].
  split; [|split; [reflexivity|split; [reflexivity|split]]].
  - intros [|[|i]]; vm_compute; intuition discriminate.
  - split; [|discriminate]. intros i (_ & H). inversion H. reflexivity.
  - cbv zeta. repeat split. discriminate.
Qed.

(** Both ends change: plug 0 leaves its socket, plug 1 stays. *)
Example C105_not_vacuous : let s := w_req w_two 0 (-99) 2 0 in let j := w_jumper 0 1 false in
  on_nodes 3 s /\ belongs s 0 3 0 /\ belongs s 1 3 1 /\
  let r := update_plugs 3 s j in snd r = false /\ j_m0 (snd (fst r)) = 2 /\ j_m1 (snd (fst r)) = 1 /\ j_upd (snd (fst r)) = true.
Proof.
  cbv zeta. split; [intros [|[|i]]; vm_compute; intuition discriminate|]. split; [|split].
  - split; [|discriminate]. intros i (_ & H). inversion H. reflexivity.
  - split; [|discriminate]. intros i (_ & H). inversion H. reflexivity.
  - repeat split.
Qed.
(** A restart after socket 0 has been moved to node 3: plug 0 follows. *)
Example C105_restart_not_vacuous : let s := put_sock w_two 0 (mksocket (Some 0%nat) true 3 2) in
  reach s /\ on_nodes 3 s /\ (forall p, p = 0%nat \/ p = 1%nat -> no_direct (y_plug s p) /\ 0 <= g_last (y_plug s p) <= none (y_plug s p)) /\
  let r := restart_jumper 3 3 3 s (w_jumper 0 1 false) in snd r = false /\ j_m0 (snd (fst r)) = 3 /\ j_m1 (snd (fst r)) = 1.
Proof.
  cbv zeta. split; [apply re_move; [apply w_two_reach|split; reflexivity]|]. split; [intros [|[|i]]; vm_compute; intuition discriminate|]. split.
  - intros p [->| ->]; (split; [right; left; vm_compute; intuition discriminate|vm_compute; intuition discriminate]).
  - repeat split.
Qed.
Example C106_not_vacuous : blocked w_two (w_jumper 0 1 false) = false /\ blocked w_one (w_jumper 0 1 false) = true /\
  socket_blocked false (y_sock w_one 0) = true /\ socket_blocked false (y_sock w_one 1) = false.
Proof. repeat split. Qed.

Print Assumptions C100_plug.
Print Assumptions C100_socket.
Print Assumptions C101_others.
Print Assumptions C102_requests.
Print Assumptions C103_direct_join.
Print Assumptions C103_direct_leave.
Print Assumptions C104_never_again.
Print Assumptions C105_plug_node.
Print Assumptions C105_ports.
Print Assumptions C105_restart.
Print Assumptions C106_jumper.
Print Assumptions C106_socket.
