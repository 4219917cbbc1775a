(** C223: the layout of super-networks. *)
From Coq Require Import List Arith ZArith Bool Lia.
From Verif Require Import SuperNet.
Import ListNotations.
Local Open Scope Z_scope.

Lemma added_iff s n h : added s n h = true <-> In n (u_subs (h_sup h s)).
Proof.
  unfold added. rewrite existsb_exists. split.
  - intros (x & I & E). apply Nat.eqb_eq in E. now subst.
  - intro I. exists n. split; [exact I|apply Nat.eqb_refl].
Qed.
Lemma added_not s n h : added s n h = false <-> ~ In n (u_subs (h_sup h s)).
Proof. rewrite <- added_iff. destruct (added s n h); split; intro H; congruence. Qed.

(** Networks one after the other from an offset on. *)
Fixpoint laid (g : nat -> net) (o : Z) (l : list nat) : Prop :=
  match l with [] => True | n :: r => t_off (g n) = o /\ laid g (o + (t_size (g n) - 1)) r end.
Fixpoint total (g : nat -> net) (l : list nat) : Z := match l with [] => 0 | n :: r => t_size (g n) - 1 + total g r end.
Lemma total_app g a b : total g (a ++ b) = total g a + total g b.
Proof. induction a as [|n a IH]; cbn; [reflexivity|rewrite IH; lia]. Qed.
Lemma laid_app g a : forall o b, laid g o (a ++ b) <-> laid g o a /\ laid g (o + total g a) b.
Proof.
  induction a as [|n a IH]; intros o b; cbn [app laid total]; [rewrite Z.add_0_r; tauto|]. rewrite IH.
  replace (o + (t_size (g n) - 1) + total g a) with (o + (t_size (g n) - 1 + total g a)) by lia. tauto.
Qed.
Lemma laid_ext g g' l : (forall n, In n l -> g' n = g n) -> forall o, laid g o l -> laid g' o l.
Proof.
  induction l as [|n l IH]; intros E o; cbn [laid]; [trivial|]. rewrite (E n) by (now left). intros [A B]. split; [exact A|]. apply IH; [|exact B]. intros m I. apply E. now right.
Qed.
Lemma total_ext g g' l : (forall n, In n l -> t_size (g' n) = t_size (g n)) -> total g' l = total g l.
Proof. induction l as [|n l IH]; intro E; cbn; [reflexivity|]. rewrite (E n) by (now left). rewrite IH; [reflexivity|]. intros m I. apply E. now right. Qed.

Lemma nodup_app {X : Type} (a b : list X) : NoDup a -> NoDup b -> (forall x, In x a -> ~ In x b) -> NoDup (a ++ b).
Proof.
  induction a as [|x a IH]; intros A B D; [exact B|]. inversion_clear A as [|? ? A1 A2]. cbn. constructor.
  - rewrite in_app_iff. intros [J|J]; [contradiction|]. now apply (D x); [left|].
  - apply IH; [exact A2|exact B|]. intros y J. apply D. now right.
Qed.
Definition good (h : heap) : Prop :=
  (forall s, NoDup (u_subs (h_sup h s))) /\
  (forall s n, In n (u_subs (h_sup h s)) <-> t_sup (h_net h n) = Some s) /\
  (forall s, laid (h_net h) 0 (u_subs (h_sup h s))) /\
  (forall s, u_nodes (h_sup h s) = total (h_net h) (u_subs (h_sup h s)) + if u_reg (h_sup h s) then 1 else 0) /\
  (forall n, (h_new h <= n)%nat -> t_sup (h_net h n) = None) /\
  (forall n, (n < h_new h)%nat -> 1 <= t_size (h_net h n)).

Ltac six := refine (conj _ (conj _ (conj _ (conj _ (conj _ _))))).
Ltac eqbs := repeat match goal with
  | |- context [Nat.eqb ?a ?b] => destruct (Nat.eqb_spec a b); subst
  | H : context [Nat.eqb ?a ?b] |- _ => destruct (Nat.eqb_spec a b); subst
  end.
Lemma push_net s n h m : h_net (push s n h) m = if Nat.eqb m n then mknet (t_size (h_net h n)) (u_nodes (h_sup h s)) (Some s) (t_index (h_net h n)) else h_net h m.
Proof. reflexivity. Qed.
Lemma push_sup s n h r : h_sup (push s n h) r = if Nat.eqb r s then mksup (u_subs (h_sup h s) ++ [n]) (u_nodes (h_sup h s) + (t_size (h_net h n) - 1)) (u_reg (h_sup h s)) (u_joints (h_sup h s)) else h_sup h r.
Proof. unfold push. cbn. now rewrite Nat.eqb_refl. Qed.
Lemma push_good s n h : good h -> u_reg (h_sup h s) = false -> t_sup (h_net h n) = None -> (n < h_new h)%nat -> good (push s n h).
Proof.
  intros (A & B & C & D & E & F) G P Q.
  assert (X : forall r, ~ In n (u_subs (h_sup h r))) by (intros r I; apply B in I; congruence).
  assert (Y : forall r m, In m (u_subs (h_sup h r)) -> h_net (push s n h) m = h_net h m).
  { intros r m I. rewrite push_net. destruct (Nat.eqb_spec m n) as [-> |]; [now apply X in I|reflexivity]. }
  assert (Z1 : t_size (h_net (push s n h) n) = t_size (h_net h n)) by (rewrite push_net, Nat.eqb_refl; reflexivity).
  six.
  - intro r. rewrite push_sup. destruct (Nat.eqb_spec r s) as [-> |]; [|apply A]. cbn [u_subs]. assert (AD := Add_app n (u_subs (h_sup h s)) []). rewrite app_nil_r in AD. apply (NoDup_Add AD). split; [apply A|apply X].
  - intros s0 n0. split.
    + intro I. rewrite push_sup in I. rewrite push_net. destruct (Nat.eqb_spec s0 s) as [-> |]; cbn [u_subs] in I.
      * apply in_app_iff in I. destruct I as [I|[<-|[]]]; [|rewrite Nat.eqb_refl; reflexivity]. destruct (Nat.eqb_spec n0 n) as [_|_]; [reflexivity|now apply B].
      * destruct (Nat.eqb_spec n0 n) as [-> |]; [now apply X in I|now apply B].
    + intro I. rewrite push_sup. rewrite push_net in I. destruct (Nat.eqb_spec n0 n) as [Q1|Q1]; cbn [t_sup] in I; [rewrite Q1 in *|].
      * injection I as <-. rewrite Nat.eqb_refl. cbn [u_subs]. apply in_app_iff. right. now left.
      * apply B in I. destruct (Nat.eqb_spec s0 s) as [-> |]; [cbn [u_subs]; apply in_app_iff; now left|exact I].
  - intro r. rewrite push_sup. destruct (Nat.eqb_spec r s) as [-> |].
    + cbn [u_subs]. apply laid_app. split; [apply (laid_ext (h_net h)); [apply Y|apply C]|]. cbn [laid]. split; [|trivial].
      rewrite push_net, Nat.eqb_refl. cbn [t_off]. rewrite D, G. rewrite (total_ext (h_net h) (h_net (push s n h))); [lia|]. intros m I. now rewrite (Y s m I).
    + apply (laid_ext (h_net h)); [apply Y|apply C].
  - intro r. rewrite push_sup. destruct (Nat.eqb_spec r s) as [-> |].
    + cbn [u_subs u_nodes u_reg]. rewrite total_app. cbn [total]. rewrite Z1, D. rewrite (total_ext (h_net h) (h_net (push s n h))); [lia|]. intros m I. now rewrite (Y s m I).
    + rewrite D. f_equal. symmetry. apply total_ext. intros m I. now rewrite (Y r m I).
  - intros m M. change (h_new (push s n h)) with (h_new h) in M. rewrite push_net. destruct (Nat.eqb_spec m n) as [-> |]; [lia|now apply E].
  - intros m M. change (h_new (push s n h)) with (h_new h) in M. rewrite push_net. destruct (Nat.eqb_spec m n) as [-> |]; [now apply F|now apply F].
Qed.

(** Moving the networks of one super-network to another. *)
Lemma move_out s h n : ~ In n (u_subs (h_sup h s)) -> 
  (forall m, h_net (move s h n) m = if Nat.eqb m n then mknet (t_size (h_net h n)) (u_nodes (h_sup h s)) (Some s) (t_index (h_net h n)) else h_net h m) /\
  (forall r, h_sup (move s h n) r = if Nat.eqb r s then mksup (u_subs (h_sup h s) ++ [n]) (u_nodes (h_sup h s) + (t_size (h_net h n) - 1)) (u_reg (h_sup h s)) (u_joints (h_sup h s)) else h_sup h r) /\
  h_new (move s h n) = h_new h.
Proof.
  intro I. unfold move. assert (A : added s n (set_offset n 0 None h) = false) by (apply added_not; exact I). rewrite A. split; [|split].
  - intro m. rewrite push_net. cbn. rewrite Nat.eqb_refl. destruct (Nat.eqb m n); reflexivity.
  - intro r. rewrite push_sup. cbn. rewrite Nat.eqb_refl. reflexivity.
  - reflexivity.
Qed.
Lemma moves s l : forall h, NoDup l -> (forall n, In n l -> ~ In n (u_subs (h_sup h s))) ->
  let h' := fold_left (move s) l h in
  (forall r, r <> s -> h_sup h' r = h_sup h r) /\
  h_sup h' s = mksup (u_subs (h_sup h s) ++ l) (u_nodes (h_sup h s) + total (h_net h) l) (u_reg (h_sup h s)) (u_joints (h_sup h s)) /\
  (forall n, ~ In n l -> h_net h' n = h_net h n) /\
  (forall n, In n l -> t_sup (h_net h' n) = Some s /\ t_size (h_net h' n) = t_size (h_net h n) /\ t_index (h_net h' n) = t_index (h_net h n)) /\
  laid (h_net h') (u_nodes (h_sup h s)) l /\ h_new h' = h_new h.
Proof.
  induction l as [|n l IH]; intros h D X.
  - cbn. rewrite app_nil_r, Z.add_0_r. repeat split; try tauto. destruct (h_sup h s); reflexivity.
  - inversion_clear D as [|? ? D1 D2]. destruct (move_out s h n) as (M1 & M2 & M3); [apply X; now left|].
    cbn [fold_left]. destruct (IH (move s h n)) as (I1 & I2 & I3 & I4 & I5 & I6); [exact D2| |].
    { intros m I. rewrite M2, Nat.eqb_refl. cbn [u_subs]. rewrite in_app_iff. intros [J|[J|[]]]; [now apply (X m); [right|]|subst; tauto]. }
    assert (N1 : forall m, In m l -> h_net (move s h n) m = h_net h m) by (intros m I; rewrite M1; destruct (Nat.eqb_spec m n) as [-> |]; [tauto|reflexivity]).
    assert (S1 : h_sup (move s h n) s = mksup (u_subs (h_sup h s) ++ [n]) (u_nodes (h_sup h s) + (t_size (h_net h n) - 1)) (u_reg (h_sup h s)) (u_joints (h_sup h s))) by (rewrite M2, Nat.eqb_refl; reflexivity).
    rewrite S1 in *. cbn [u_subs u_nodes u_reg u_joints] in *.
    cbv zeta. repeat split.
    + intros r R1. rewrite I1 by exact R1. rewrite M2. destruct (Nat.eqb_spec r s); [contradiction|reflexivity].
    + rewrite I2. rewrite <- app_assoc. cbn [app total]. f_equal. rewrite (total_ext (h_net h) (h_net (move s h n))); [lia|]. intros m I. now rewrite N1.
    + intros m I. rewrite I3 by (intro J; apply I; now right). rewrite M1. destruct (Nat.eqb_spec m n) as [-> |]; [exfalso; apply I; now left|reflexivity].
    + destruct H as [<-|J]; [rewrite I3, M1, Nat.eqb_refl by assumption; reflexivity|now apply I4].
    + destruct H as [<-|J]; [rewrite I3, M1, Nat.eqb_refl by assumption; reflexivity|]. destruct (I4 _ J) as (_ & -> & _). now rewrite N1.
    + destruct H as [<-|J]; [rewrite I3, M1, Nat.eqb_refl by assumption; reflexivity|]. destruct (I4 _ J) as (_ & _ & ->). now rewrite N1.
    + rewrite I3, M1, Nat.eqb_refl by assumption. reflexivity.
    + rewrite I3, M1, Nat.eqb_refl by assumption. exact I5.
    + now rewrite I6.
Qed.
Lemma empty_sup s h r : h_sup (empty s h) r = if Nat.eqb r s then mksup [] 0 false (u_joints (h_sup h s)) else h_sup h r.
Proof. reflexivity. Qed.
Lemma add_sup_shape s s' h : good h -> s <> s' -> u_reg (h_sup h s) = false ->
  let h' := add_sup s s' h in let l := u_subs (h_sup h s') in
  (forall r, r <> s -> r <> s' -> h_sup h' r = h_sup h r) /\
  h_sup h' s = mksup (u_subs (h_sup h s) ++ l) (u_nodes (h_sup h s) + total (h_net h) l) false (u_joints (h_sup h s)) /\
  h_sup h' s' = mksup [] 0 false (u_joints (h_sup h s')) /\
  (forall n, ~ In n l -> h_net h' n = h_net h n) /\
  (forall n, In n l -> t_sup (h_net h' n) = Some s /\ t_size (h_net h' n) = t_size (h_net h n) /\ t_index (h_net h' n) = t_index (h_net h n)) /\
  laid (h_net h') (u_nodes (h_sup h s)) l /\ h_new h' = h_new h.
Proof.
  intros (A & B & C & D & E & F) N G. cbv zeta. unfold add_sup. rewrite G.
  destruct (moves s (u_subs (h_sup h s')) h (A s')) as (I1 & I2 & I3 & I4 & I5 & I6).
  { intros n I J. apply B in I. apply B in J. congruence. }
  rewrite G in I2. repeat split; try assumption; try (now apply I4).
  - intros r R1 R2. rewrite empty_sup. destruct (Nat.eqb_spec r s'); [contradiction|]. now apply I1.
  - rewrite empty_sup. destruct (Nat.eqb_spec s s'); [contradiction|]. exact I2.
  - rewrite empty_sup, Nat.eqb_refl. rewrite I1 by congruence. reflexivity.
Qed.
Lemma add_sup_good s s' h : good h -> s <> s' -> good (add_sup s s' h).
Proof.
  intros W N. destruct (u_reg (h_sup h s)) eqn:G; [unfold add_sup; rewrite G; exact W|].
  destruct (add_sup_shape s s' h W N G) as (I1 & I2 & I3 & I4 & I5 & I6 & I7). destruct W as (A & B & C & D & E & F).
  set (h' := add_sup s s' h) in *. set (l := u_subs (h_sup h s')) in *. clearbody h'.
  assert (K : forall r n, r <> s' -> In n (u_subs (h_sup h r)) -> ~ In n l). { intros r n R1 I J. apply B in I. apply B in J. congruence. }
  assert (SZ : forall n, t_size (h_net h' n) = t_size (h_net h n)).
  { intro n. destruct (in_dec Nat.eq_dec n l) as [J|J]; [now apply I5|now rewrite I4]. }
  assert (Y : forall r, r <> s' -> laid (h_net h') 0 (u_subs (h_sup h r))).
  { intros r R1. apply (laid_ext (h_net h)); [|apply C]. intros n I. apply I4. now apply (K r). }
  six.
  - intro r. destruct (Nat.eq_dec r s) as [-> |R1]; [|destruct (Nat.eq_dec r s') as [-> |R2]].
    + rewrite I2. cbn [u_subs]. apply nodup_app; [apply A|apply A|]. intros n J. now apply (K s).
    + rewrite I3. constructor.
    + rewrite I1 by assumption. apply A.
  - intros s0 n. split.
    + intro I. destruct (Nat.eq_dec s0 s) as [-> |R1]; [|destruct (Nat.eq_dec s0 s') as [-> |R2]].
      * rewrite I2 in I. cbn [u_subs] in I. apply in_app_iff in I. destruct I as [I|I]; [|now apply I5]. rewrite I4; [now apply B|]. now apply (K s).
      * rewrite I3 in I. destruct I.
      * rewrite I1 in I by assumption. rewrite I4; [now apply B|]. now apply (K s0).
    + intro I. destruct (in_dec Nat.eq_dec n l) as [J|J].
      * destruct (I5 n J) as (X & _ & _). rewrite X in I. injection I as <-. rewrite I2. cbn [u_subs]. apply in_app_iff. now right.
      * rewrite I4 in I by exact J. apply B in I. destruct (Nat.eq_dec s0 s) as [-> |R1]; [|destruct (Nat.eq_dec s0 s') as [-> |R2]].
        -- rewrite I2. cbn [u_subs]. apply in_app_iff. now left.
        -- contradiction.
        -- now rewrite I1.
  - intro r. destruct (Nat.eq_dec r s) as [-> |R1]; [|destruct (Nat.eq_dec r s') as [-> |R2]].
    + rewrite I2. cbn [u_subs]. apply laid_app. split; [now apply Y|]. rewrite (total_ext (h_net h) (h_net h')) by (intros; apply SZ). pose proof (D s) as Q. rewrite G in Q. rewrite Z.add_0_r in Q. rewrite <- Q. exact I6.
    + rewrite I3. exact I.
    + rewrite I1 by assumption. now apply Y.
  - intro r. rewrite (total_ext (h_net h) (h_net h')) by (intros; apply SZ). destruct (Nat.eq_dec r s) as [-> |R1]; [|destruct (Nat.eq_dec r s') as [-> |R2]].
    + rewrite I2. cbn [u_subs u_nodes u_reg]. rewrite total_app. pose proof (D s) as Q. rewrite G in Q. lia.
    + rewrite I3. reflexivity.
    + rewrite I1 by assumption. apply D.
  - intros n M. rewrite I7 in M. rewrite I4; [now apply E|]. intro J. apply B in J. rewrite E in J by exact M. discriminate.
  - intros n M. rewrite I7 in M. rewrite SZ. now apply F.
Qed.
Lemma add_net_good s n h : good h -> (n < h_new h)%nat -> good (add_net s n h).
Proof.
  intros W L. unfold add_net. destruct (u_reg (h_sup h s)) eqn:G; [exact W|]. destruct (added s n h) eqn:A; [exact W|]. destruct (t_sup (h_net h n)) as [s'|] eqn:P.
  - apply add_sup_good; [exact W|]. intros <-. apply added_not in A. apply A. destruct W as (_ & B & _). now apply B.
  - now apply push_good.
Qed.
Lemma register_good s h : good h -> good (register s h).
Proof.
  intro W. unfold register. destruct (u_reg (h_sup h s)) eqn:G; [exact W|]. destruct W as (A & B & C & D & E & F).
  assert (X : forall r, u_subs (h_sup (set_sup s (mksup (u_subs (h_sup h s)) (u_nodes (h_sup h s) + 1) true (u_joints (h_sup h s))) h) r) = u_subs (h_sup h r)).
  { intro r. cbn. destruct (Nat.eqb_spec r s) as [-> |]; reflexivity. }
  six; try assumption.
  - intro r. rewrite X. apply A.
  - intros r m. rewrite X. apply B.
  - intro r. rewrite X. apply C.
  - intro r. rewrite X. cbn. destruct (Nat.eqb_spec r s) as [-> |]; [|apply D]. cbn. rewrite D, G. lia.
Qed.
Lemma add_joint_subs s j h r : u_subs (h_sup (add_joint s j h) r) = u_subs (h_sup h r) /\ u_nodes (h_sup (add_joint s j h) r) = u_nodes (h_sup h r) /\ u_reg (h_sup (add_joint s j h) r) = u_reg (h_sup h r).
Proof. cbn. destruct (Nat.eqb_spec r s) as [-> |]; auto. Qed.
Lemma add_joint_good s j h : good h -> good (add_joint s j h).
Proof.
  intros (A & B & C & D & E & F). assert (X := add_joint_subs s j h). six; try assumption.
  - intro r. destruct (X r) as (-> & _). apply A.
  - intros r m. destruct (X r) as (-> & _). apply B.
  - intro r. destruct (X r) as (-> & _). apply C.
  - intro r. destruct (X r) as (-> & -> & ->). apply D.
Qed.
Lemma create_good w s ty h : good h -> 1 <= w_size w ty -> good (create w s ty h).
Proof.
  intros (A & B & C & D & E & F) Q.
  assert (Y : forall r n, In n (u_subs (h_sup h r)) -> h_net (create w s ty h) n = h_net h n).
  { intros r n I. cbn. destruct (Nat.eqb_spec n (h_new h)) as [-> |]; [|reflexivity]. apply B in I. rewrite E in I by lia. discriminate. }
  six.
  - apply A.
  - intros s0 n. split.
    + intro I. change (h_sup (create w s ty h)) with (h_sup h) in I. rewrite (Y s0 n I). now apply B.
    + intro I. cbn in I. destruct (Nat.eqb_spec n (h_new h)) as [Q1|Q1]; [discriminate|]. now apply B.
  - intro r. apply (laid_ext (h_net h)); [apply Y|apply C].
  - intro r. change (h_sup (create w s ty h) r) with (h_sup h r). rewrite D. f_equal. symmetry. apply total_ext. intros n I. now rewrite (Y r n I).
  - intros n M. cbn in *. destruct (Nat.eqb_spec n (h_new h)) as [-> |]; [reflexivity|]. apply E. lia.
  - intros n M. cbn in *. destruct (Nat.eqb_spec n (h_new h)) as [-> |]; [exact Q|]. apply F. lia.
Qed.
Lemma add_sup_new s s' h : h_new (add_sup s s' h) = h_new h.
Proof.
  unfold add_sup. destruct (u_reg _); [reflexivity|]. cbn. assert (X : forall l h, h_new (fold_left (move s) l h) = h_new h).
  { induction l as [|n l IH]; intro k; [reflexivity|]. cbn [fold_left]. rewrite IH. unfold move. destruct (added _ _ _); reflexivity. } apply X.
Qed.
Lemma add_net_new s n h : h_new (add_net s n h) = h_new h.
Proof. unfold add_net. destruct (u_reg _); [reflexivity|]. destruct (added _ _ _); [reflexivity|]. destruct (t_sup _); [apply add_sup_new|reflexivity]. Qed.
(** The joints' networks are there. *)
Definition jgood (h : heap) : Prop := forall s j, In j (u_joints (h_sup h s)) -> (j_net j < h_new h)%nat.
Lemma add_sup_joints s s' h r : u_joints (h_sup (add_sup s s' h) r) = u_joints (h_sup h r).
Proof.
  unfold add_sup. destruct (u_reg _); [reflexivity|]. assert (X : forall l h, u_joints (h_sup (fold_left (move s) l h) r) = u_joints (h_sup h r)).
  { induction l as [|n l IH]; intro k; [reflexivity|]. cbn [fold_left]. rewrite IH. unfold move. destruct (added _ _ _); [reflexivity|]. rewrite push_sup. cbn. destruct (Nat.eqb_spec r s) as [-> |]; reflexivity. }
  rewrite empty_sup. destruct (Nat.eqb_spec r s') as [-> |]; [cbn [u_joints]|]; apply X.
Qed.
Lemma add_net_joints s n h r : u_joints (h_sup (add_net s n h) r) = u_joints (h_sup h r).
Proof.
  unfold add_net. destruct (u_reg _); [reflexivity|]. destruct (added _ _ _); [reflexivity|]. destruct (t_sup _); [apply add_sup_joints|]. rewrite push_sup. destruct (Nat.eqb_spec r s) as [-> |]; reflexivity.
Qed.
Lemma loc_joint_in js l n : loc_joint js l = Some n -> exists j, In j js /\ j_net j = n /\ (j_1 j = l \/ j_2 j = l).
Proof.
  unfold loc_joint. destruct (find (touches l) js) as [j|] eqn:F; [|discriminate]. intro H. injection H as <-. apply find_some in F. destruct F as [F1 F2]. exists j. split; [exact F1|]. split; [reflexivity|].
  unfold touches in F2. apply orb_true_iff in F2. rewrite !Nat.eqb_eq in F2. intuition.
Qed.
(** What a join that does not throw does. *)
Lemma join_ok w s l1 l2 h h' : join w s l1 l2 h = (h', true) ->
  w_type w l1 = w_type w l2 /\ exists n k,
  h' = add_net s (w_net w l2) (add_net s (w_net w l1) (add_net s n (add_joint s (mkjoint n l1 l2) k))) /\
  (let a := loc_joint (u_joints (h_sup h s)) l1 in let b := loc_joint (u_joints (h_sup h s)) l2 in
   (a = Some n /\ b = None /\ k = h) \/ (a = None /\ b = Some n /\ k = h) \/
   (a = None /\ b = None /\ n = h_new h /\ k = create w s (w_type w l1) h)).
Proof.
  unfold join. destruct (Z.eqb_spec (w_type w l1) (w_type w l2)) as [Q|Q]; cbn [negb]; [|discriminate]. intro H. split; [exact Q|].
  destruct (loc_joint _ l1) as [n|] eqn:E1, (loc_joint _ l2) as [m|] eqn:E2; try discriminate; injection H as <-; eexists; eexists; (split; [reflexivity|]); cbv zeta; intuition.
Qed.
Lemma join_not w s l1 l2 h h' : join w s l1 l2 h = (h', false) -> h' = h.
Proof. unfold join. destruct (negb _); [congruence|]. destruct (loc_joint _ l1), (loc_joint _ l2); congruence. Qed.

(** What calls may be made: on networks that exist; a super-network is not added to itself. *)
Definition allowed (w : world) (base : nat) (o : op) : Prop :=
  match o with
  | AddNet _ n => (n < base)%nat
  | AddSup s s' => s <> s'
  | Register _ => True
  | Join _ l1 l2 => (w_net w l1 < base)%nat /\ (w_net w l2 < base)%nat
  end.
Lemma do_op_good w base h o : (forall t, 1 <= w_size w t) -> (base <= h_new h)%nat -> allowed w base o -> good h -> jgood h ->
  good (do_op w h o) /\ jgood (do_op w h o) /\ (base <= h_new (do_op w h o))%nat.
Proof.
  intros WS BS AL W J. destruct o as [s n|s s'|s|s l1 l2]; cbn [do_op allowed] in *.
  - split; [apply add_net_good; [exact W|lia]|]. split; [|now rewrite add_net_new]. intros r j I. rewrite add_net_joints in I. rewrite add_net_new. now apply (J r).
  - split; [now apply add_sup_good|]. split; [|now rewrite add_sup_new]. intros r j I. rewrite add_sup_joints in I. rewrite add_sup_new. now apply (J r).
  - split; [now apply register_good|]. unfold register. destruct (u_reg _); [split; assumption|]. split; [|exact BS]. intros r j I. cbn in I. apply (J r). destruct (Nat.eqb_spec r s) as [-> |]; exact I.
  - destruct (join w s l1 l2 h) as [h' b] eqn:E. cbn [fst]. destruct b; [|apply join_not in E; subst; auto].
    apply join_ok in E. destruct E as (_ & n & k & -> & K). cbv zeta in K. destruct AL as [AL1 AL2].
    assert (X : good k /\ (n < h_new k)%nat /\ (base <= h_new k)%nat /\ (h_new h <= h_new k)%nat /\ forall r, h_sup k r = h_sup h r).
    { destruct K as [(K1 & _ & ->)|[(_ & K1 & ->)|(_ & _ & -> & ->)]].
      - apply loc_joint_in in K1. destruct K1 as (j & K1 & <- & _). apply J in K1. auto 6.
      - apply loc_joint_in in K1. destruct K1 as (j & K1 & <- & _). apply J in K1. auto 6.
      - split; [now apply create_good|]. cbn [h_new create h_sup]. repeat split; auto; lia. }
    clear K. destruct X as (X1 & X2 & X3 & X4 & X5).
    set (k1 := add_joint s (mkjoint n l1 l2) k). assert (N1 : h_new k1 = h_new k) by reflexivity.
    assert (G1 : good k1) by (now apply add_joint_good).
    assert (G2 : good (add_net s n k1)) by (apply add_net_good; [exact G1|lia]).
    assert (G3 : good (add_net s (w_net w l1) (add_net s n k1))) by (apply add_net_good; [exact G2|rewrite add_net_new; lia]).
    split; [apply add_net_good; [exact G3|rewrite !add_net_new; lia]|]. rewrite !add_net_new. split; [|exact X3].
    intros r j I. rewrite !add_net_joints in I. rewrite !add_net_new, N1. unfold k1, add_joint in I. cbn in I. destruct (Nat.eqb_spec r s) as [-> |].
    + cbn in I. apply in_app_iff in I. destruct I as [I|[<-|[]]]; [|exact X2]. rewrite X5 in I. apply J in I. lia.
    + rewrite X5 in I. apply J in I. lia.
Qed.
Lemma fresh_good sizes : (forall z, In z sizes -> 1 <= z) -> good (fresh sizes) /\ jgood (fresh sizes).
Proof.
  intro H. split; [|intros s j []]. six; cbn.
  - constructor.
  - intros s n. split; [tauto|discriminate].
  - trivial.
  - reflexivity.
  - reflexivity.
  - intros n L. apply H. now apply nth_In.
Qed.
Lemma run_good w sizes os : (forall t, 1 <= w_size w t) -> (forall z, In z sizes -> 1 <= z) -> Forall (allowed w (length sizes)) os ->
  good (run w os (fresh sizes)) /\ jgood (run w os (fresh sizes)) /\ (length sizes <= h_new (run w os (fresh sizes)))%nat.
Proof.
  intros WS H. destruct (fresh_good sizes H) as [A B]. assert (C : (length sizes <= h_new (fresh sizes))%nat) by (cbn; lia).
  revert A B C. unfold run. generalize (fresh sizes) as h. induction os as [|o os IH]; intros h A B C F; [auto|]. inversion_clear F. cbn [fold_left].
  destruct (do_op_good w (length sizes) h o WS C H0 A B) as (D & E & G). now apply IH.
Qed.

(** ** C223 *)
(** Each network is in one super-network at most, once, and knows which. *)
Theorem C223_one_home : forall w sizes os, (forall t, 1 <= w_size w t) -> (forall z, In z sizes -> 1 <= z) -> Forall (allowed w (length sizes)) os ->
  let h := run w os (fresh sizes) in forall s, NoDup (u_subs (h_sup h s)) /\ forall n, In n (u_subs (h_sup h s)) <-> t_sup (h_net h n) = Some s.
Proof. intros w sizes os WS H F. cbv zeta. destruct (run_good w sizes os WS H F) as ((A & B & _) & _). auto. Qed.
(** The nodes of a super-network are shared out: each network's own nodes are within, each node but the
    ground belongs to exactly one network. *)
Lemma laid_bound g l : (forall n, In n l -> 1 <= t_size (g n)) -> forall o, laid g o l -> forall n, In n l -> o <= t_off (g n) /\ t_off (g n) + (t_size (g n) - 1) <= o + total g l.
Proof.
  intro P. assert (T : forall k, (forall n, In n k -> 1 <= t_size (g n)) -> 0 <= total g k). { induction k as [|n k IH]; intro H; cbn; [lia|]. pose proof (H n (or_introl eq_refl)). specialize (IH (fun m I => H m (or_intror I))). lia. }
  induction l as [|n l IH]; intros o L m I; [destruct I|]. cbn [laid total] in *. destruct L as [L1 L2].
  pose proof (P n (or_introl eq_refl)). pose proof (T l (fun m I => P m (or_intror I))).
  destruct I as [<-|I]; [lia|]. specialize (IH (fun m I => P m (or_intror I)) _ L2 m I). lia.
Qed.
Lemma laid_cover g l : (forall n, In n l -> 1 <= t_size (g n)) -> forall o, laid g o l -> NoDup l -> forall i, o <= i < o + total g l ->
  exists n, In n l /\ t_off (g n) <= i < t_off (g n) + (t_size (g n) - 1) /\ forall m, In m l -> t_off (g m) <= i < t_off (g m) + (t_size (g m) - 1) -> m = n.
Proof.
  intro P. induction l as [|n l IH]; intros o L N i H; cbn [laid total] in *; [lia|]. destruct L as [L1 L2]. inversion_clear N.
  assert (P' : forall m, In m l -> 1 <= t_size (g m)) by (intros m I; apply P; now right). pose proof (laid_bound g l P' _ L2) as Q.
  destruct (Z_lt_dec i (o + (t_size (g n) - 1))) as [K|K].
  - exists n. split; [now left|]. split; [lia|]. intros m [<-|I] M; [reflexivity|]. specialize (Q m I). lia.
  - destruct (IH P' _ L2 H1 i ltac:(lia)) as (m & M1 & M2 & M3). exists m. split; [now right|]. split; [exact M2|]. intros m' [<-|I] M; [lia|now apply M3].
Qed.
Theorem C223_layout : forall w sizes os, (forall t, 1 <= w_size w t) -> (forall z, In z sizes -> 1 <= z) -> Forall (allowed w (length sizes)) os ->
  let h := run w os (fresh sizes) in forall s,
  let own := u_nodes (h_sup h s) - (if u_reg (h_sup h s) then 1 else 0) in
  let at_ n i := t_off (h_net h n) <= i < t_off (h_net h n) + (t_size (h_net h n) - 1) in
  (forall n, In n (u_subs (h_sup h s)) -> 0 <= t_off (h_net h n) /\ t_off (h_net h n) + (t_size (h_net h n) - 1) <= own) /\
  (forall i, 0 <= i < own -> exists n, In n (u_subs (h_sup h s)) /\ at_ n i /\ forall m, In m (u_subs (h_sup h s)) -> at_ m i -> m = n).
Proof.
  intros w sizes os WS H F. cbv zeta. intro s. destruct (run_good w sizes os WS H F) as ((A & B & C & D & E & G) & _). set (h := run w os (fresh sizes)) in *.
  assert (P : forall n, In n (u_subs (h_sup h s)) -> 1 <= t_size (h_net h n)).
  { intros n I. apply G. destruct (le_lt_dec (h_new h) n) as [Q|Q]; [|exact Q]. apply B in I. rewrite E in I by exact Q. discriminate. }
  assert (O : u_nodes (h_sup h s) - (if u_reg (h_sup h s) then 1 else 0) = total (h_net h) (u_subs (h_sup h s))) by (rewrite D; lia). rewrite O. split.
  - intros n I. pose proof (laid_bound _ _ P 0 (C s) n I). lia.
  - intros i I. apply (laid_cover _ _ P 0 (C s) (A s)). lia.
Qed.
Print Assumptions C223_one_home.
Print Assumptions C223_layout.

(** No network is lost, and networks that are together stay together. *)
Lemma add_sup_kept s s' h : good h -> s <> s' -> forall n r, t_sup (h_net h n) = Some r -> t_sup (h_net (add_sup s s' h) n) = Some (if u_reg (h_sup h s) then r else if Nat.eqb r s' then s else r).
Proof.
  intros W N n r P. destruct (u_reg (h_sup h s)) eqn:G; [unfold add_sup; rewrite G; exact P|].
  destruct (add_sup_shape s s' h W N G) as (_ & _ & _ & I4 & I5 & _). destruct W as (_ & B & _). destruct (Nat.eqb_spec r s') as [-> |Q].
  - apply I5. now apply B.
  - rewrite I4; [exact P|]. intro J. apply B in J. congruence.
Qed.
Definition keeps (h h' : heap) : Prop := exists f : nat -> nat, forall n r, t_sup (h_net h n) = Some r -> t_sup (h_net h' n) = Some (f r).
Lemma keeps_refl h : keeps h h. Proof. exists (fun r => r). auto. Qed.
Lemma keeps_trans a b c : keeps a b -> keeps b c -> keeps a c.
Proof. intros [f F] [g G]. exists (fun r => g (f r)). auto. Qed.
Lemma add_sup_keeps s s' h : good h -> s <> s' -> keeps h (add_sup s s' h).
Proof. intros W N. eexists. intros n r P. exact (add_sup_kept s s' h W N n r P). Qed.
Lemma add_net_keeps s n h : good h -> keeps h (add_net s n h).
Proof.
  intro W. unfold add_net. destruct (u_reg (h_sup h s)) eqn:G; [apply keeps_refl|]. destruct (added s n h) eqn:A; [apply keeps_refl|]. destruct (t_sup (h_net h n)) as [s'|] eqn:P.
  - apply add_sup_keeps; [exact W|]. intros <-. apply added_not in A. apply A. destruct W as (_ & B & _). now apply B.
  - exists (fun r => r). intros m r M. rewrite push_net. destruct (Nat.eqb_spec m n) as [-> |]; [congruence|exact M].
Qed.
Lemma do_op_keeps w base h o : (forall t, 1 <= w_size w t) -> (base <= h_new h)%nat -> allowed w base o -> good h -> jgood h -> keeps h (do_op w h o).
Proof.
  intros WS BS AL W J. destruct o as [s n|s s'|s|s l1 l2]; cbn [do_op allowed] in *.
  - now apply add_net_keeps.
  - now apply add_sup_keeps.
  - unfold register. destruct (u_reg _); exists (fun r => r); auto.
  - destruct (join w s l1 l2 h) as [h' b] eqn:E. cbn [fst]. destruct b; [|apply join_not in E; subst; apply keeps_refl].
    apply join_ok in E. destruct E as (_ & n & k & -> & K). cbv zeta in K. destruct AL as [AL1 AL2].
    assert (X : good k /\ (n < h_new k)%nat /\ (base <= h_new k)%nat /\ keeps h k).
    { destruct K as [(K1 & _ & ->)|[(_ & K1 & ->)|(_ & _ & -> & ->)]].
      - apply loc_joint_in in K1. destruct K1 as (j & K1 & <- & _). apply J in K1. split; [exact W|]. split; [exact K1|]. split; [exact BS|apply keeps_refl].
      - apply loc_joint_in in K1. destruct K1 as (j & K1 & <- & _). apply J in K1. split; [exact W|]. split; [exact K1|]. split; [exact BS|apply keeps_refl].
      - split; [now apply create_good|]. cbn [h_new create]. repeat split; try lia. exists (fun r => r). intros n r P. cbn. destruct (Nat.eqb_spec n (h_new h)) as [-> |]; [|exact P].
        destruct W as (_ & _ & _ & _ & E & _). rewrite E in P by lia. discriminate. }
    clear K. destruct X as (X1 & X2 & X3 & X4).
    set (k1 := add_joint s (mkjoint n l1 l2) k). assert (N1 : h_new k1 = h_new k) by reflexivity.
    assert (G1 : good k1) by (now apply add_joint_good).
    assert (G2 : good (add_net s n k1)) by (apply add_net_good; [exact G1|lia]).
    assert (G3 : good (add_net s (w_net w l1) (add_net s n k1))) by (apply add_net_good; [exact G2|rewrite add_net_new; lia]).
    apply (keeps_trans _ k); [exact X4|]. apply (keeps_trans _ k1); [exists (fun r => r); auto|].
    apply (keeps_trans _ _ _ (add_net_keeps s n k1 G1)). apply (keeps_trans _ _ _ (add_net_keeps s (w_net w l1) _ G2)). now apply add_net_keeps.
Qed.
Theorem C223_kept : forall w sizes os more, (forall t, 1 <= w_size w t) -> (forall z, In z sizes -> 1 <= z) -> Forall (allowed w (length sizes)) (os ++ more) ->
  let h := run w os (fresh sizes) in let h' := run w more h in
  (forall n, t_sup (h_net h n) <> None -> t_sup (h_net h' n) <> None) /\
  (forall n m, t_sup (h_net h n) <> None -> t_sup (h_net h n) = t_sup (h_net h m) -> t_sup (h_net h' n) = t_sup (h_net h' m)).
Proof.
  intros w sizes os more WS H F. apply Forall_app in F. destruct F as [F1 F2]. cbv zeta.
  assert (K : keeps (run w os (fresh sizes)) (run w more (run w os (fresh sizes)))).
  { destruct (run_good w sizes os WS H F1) as (A & B & C). revert A B C F2. generalize (run w os (fresh sizes)) as h. induction more as [|o more IH]; intros h A B C F2; [apply keeps_refl|]. inversion_clear F2.
    destruct (do_op_good w (length sizes) h o WS C H0 A B) as (D & E & G). apply (keeps_trans _ (do_op w h o)); [now apply (do_op_keeps w (length sizes))|]. now apply IH. }
  destruct K as [f K]. split.
  - intros n N. destruct (t_sup (h_net (run w os (fresh sizes)) n)) as [r|] eqn:E; [|congruence]. rewrite (K n r E). discriminate.
  - intros n m N M. destruct (t_sup (h_net (run w os (fresh sizes)) n)) as [r|] eqn:E; [|congruence]. rewrite (K n r E). symmetry. apply K. congruence.
Qed.
Print Assumptions C223_kept.
(** A network that is added ends up there, with all that was in its super-network; not after the nodes
    are allocated. *)
Theorem C223_added : forall w sizes os s n, (forall t, 1 <= w_size w t) -> (forall z, In z sizes -> 1 <= z) -> Forall (allowed w (length sizes)) os -> (n < length sizes)%nat ->
  let h := run w os (fresh sizes) in let h' := add_net s n h in
  if u_reg (h_sup h s) then h' = h
  else t_sup (h_net h' n) = Some s /\ (forall m, t_sup (h_net h n) <> None -> t_sup (h_net h m) = t_sup (h_net h n) -> t_sup (h_net h' m) = Some s) /\
       forall m, t_sup (h_net h m) = Some s -> t_sup (h_net h' m) = Some s /\ t_off (h_net h' m) = t_off (h_net h m).
Proof.
  intros w sizes os s n WS H F L. cbv zeta. destruct (run_good w sizes os WS H F) as (W & _ & _). set (h := run w os (fresh sizes)) in *. clearbody h.
  unfold add_net. destruct (u_reg (h_sup h s)) eqn:G; [reflexivity|]. destruct (added s n h) eqn:A.
  - apply added_iff in A. destruct W as (_ & B & _). apply B in A. rewrite A. split; [reflexivity|]. auto.
  - destruct (t_sup (h_net h n)) as [s'|] eqn:P.
    + assert (N : s <> s'). { intros <-. apply added_not in A. apply A. destruct W as (_ & B & _). now apply B. }
      pose proof (add_sup_kept s s' h W N) as K. rewrite G in K.
      assert (M : forall m, t_sup (h_net h m) = Some s' -> t_sup (h_net (add_sup s s' h) m) = Some s). { intros m Q. rewrite (K m s' Q), Nat.eqb_refl. reflexivity. }
      split; [now apply M|]. split; [intros m _ Q; now apply M|]. intros m Q. split.
      * rewrite (K m s Q). destruct (Nat.eqb_spec s s'); reflexivity.
      * destruct (add_sup_shape s s' h W N G) as (_ & _ & _ & I4 & _). rewrite I4; [reflexivity|]. destruct W as (_ & B & _). intro J. apply B in J. congruence.
    + split; [rewrite push_net, Nat.eqb_refl; reflexivity|]. split; [intros m Q; congruence|]. intros m Q. rewrite push_net. destruct (Nat.eqb_spec m n) as [-> |]; [congruence|auto].
Qed.
Print Assumptions C223_added.
(** Refuted: no network is lost when a super-network is added to itself. *)
Theorem C223_self_refuted : forall w, exists os, let h := run w os (fresh [3; 4]) in
  u_subs (h_sup h 0%nat) = [0%nat; 1%nat] /\ u_subs (h_sup (add_sup 0 0 h) 0%nat) = [] /\ u_nodes (h_sup (add_sup 0 0 h) 0%nat) = 0 /\
  t_sup (h_net (add_sup 0 0 h) 0%nat) = None /\ t_sup (h_net (add_sup 0 0 h) 1%nat) = None.
Proof. intro w. exists [AddNet 0 0; AddNet 0 1]. vm_compute. auto. Qed.
Print Assumptions C223_self_refuted.
Example C223_ex : let w := mkworld (fun l => l) (fun _ => 0) (fun _ => 2) in
  let os := [AddNet 0 0; AddNet 1 1; AddNet 1 2; AddNet 0 2; Register 0] in
  Forall (allowed w 3) os /\ let h := run w os (fresh [3; 4; 5]) in
  u_subs (h_sup h 0%nat) = [0; 1; 2]%nat /\ u_nodes (h_sup h 0%nat) = 10 /\ map (fun n => t_off (h_net h n)) [0; 1; 2]%nat = [0; 2; 5].
Proof. split; [repeat constructor; cbn; lia|]. vm_compute. auto. Qed.
