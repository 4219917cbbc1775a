(** C224: the joints of super-networks. *)
From Coq Require Import List Arith ZArith Bool Lia.
From Verif Require Import SuperNet Props_SuperNet.
Import ListNotations.
Local Open Scope Z_scope.

(** Locations that are joined, directly or through others. *)
Inductive linked (js : list joint) : nat -> nat -> Prop :=
| L_refl l : linked js l l
| L_joint j : In j js -> linked js (j_1 j) (j_2 j)
| L_sym l m : linked js l m -> linked js m l
| L_trans l m k : linked js l m -> linked js m k -> linked js l k.
Lemma linked_more js js' l m : (forall j, In j js -> In j js') -> linked js l m -> linked js' l m.
Proof. intros I H. induction H; [apply L_refl|apply L_joint; auto|now apply L_sym|eapply L_trans; eassumption]. Qed.
Lemma snoc js j l : loc_joint (js ++ [j]) l = match loc_joint js l with Some n => Some n | None => if touches l j then Some (j_net j) else None end.
Proof.
  unfold loc_joint. induction js as [|k js IH]; cbn [app find]; [destruct (touches l j); reflexivity|]. destruct (touches l k); [reflexivity|exact IH].
Qed.
Lemma touches_iff l j : touches l j = true <-> l = j_1 j \/ l = j_2 j.
Proof. unfold touches. rewrite orb_true_iff, !Nat.eqb_eq. tauto. Qed.

Definition jok (w : world) (js : list joint) : Prop :=
  (forall j, In j js -> loc_joint js (j_1 j) = Some (j_net j) /\ loc_joint js (j_2 j) = Some (j_net j) /\ w_type w (j_1 j) = w_type w (j_2 j)) /\
  (forall l m n, loc_joint js l = Some n -> loc_joint js m = Some n -> linked js l m).
Lemma jok_add w js n l1 l2 : jok w js -> w_type w l1 = w_type w l2 ->
  (loc_joint js l1 = Some n /\ loc_joint js l2 = None \/ loc_joint js l1 = None /\ loc_joint js l2 = Some n \/
   loc_joint js l1 = None /\ loc_joint js l2 = None /\ forall j, In j js -> j_net j <> n) -> jok w (js ++ [mkjoint n l1 l2]).
Proof.
  intros [A B] T K.
  assert (N1 : loc_joint (js ++ [mkjoint n l1 l2]) l1 = Some n).
  { rewrite snoc. assert (X : touches l1 (mkjoint n l1 l2) = true) by (apply touches_iff; now left). rewrite X. destruct K as [[-> _]|[[-> _]|[-> _]]]; reflexivity. }
  assert (N2 : loc_joint (js ++ [mkjoint n l1 l2]) l2 = Some n).
  { rewrite snoc. assert (X : touches l2 (mkjoint n l1 l2) = true) by (apply touches_iff; now right). rewrite X. destruct K as [[_ ->]|[[_ ->]|[_ [-> _]]]]; reflexivity. }
  assert (M : forall j, In j js -> In j (js ++ [mkjoint n l1 l2])) by (intros j I; apply in_app_iff; now left).
  assert (LL : linked (js ++ [mkjoint n l1 l2]) l1 l2) by (apply (L_joint _ (mkjoint n l1 l2)); apply in_app_iff; right; now left).
  split.
  - intros j I. apply in_app_iff in I. destruct I as [I|[<-|[]]]; [|cbn; auto]. destruct (A j I) as (A1 & A2 & A3). rewrite !snoc, A1, A2. auto.
  - assert (X : forall l x, loc_joint (js ++ [mkjoint n l1 l2]) l = Some x -> loc_joint js l = Some x \/ x = n /\ (l = l1 \/ l = l2)).
    { intros l x H. rewrite snoc in H. destruct (loc_joint js l); [now left|]. destruct (touches l _) eqn:Q; [|discriminate]. apply touches_iff in Q. cbn in Q, H. right. split; [congruence|exact Q]. }
    assert (Y : forall l, loc_joint js l = Some n -> linked (js ++ [mkjoint n l1 l2]) l l1).
    { intros l H. destruct K as [[K1 K2]|[[K1 K2]|[K1 [K2 K3]]]].
      - apply (linked_more js); [exact M|]. now apply (B _ _ n).
      - apply (L_trans _ _ l2); [apply (linked_more js); [exact M|]; now apply (B _ _ n)|now apply L_sym].
      - apply loc_joint_in in H. destruct H as (j & H1 & H2 & _). now apply K3 in H1. }
    assert (Z1 : forall l, l = l1 \/ l = l2 -> linked (js ++ [mkjoint n l1 l2]) l l1) by (intros l [-> | ->]; [apply L_refl|now apply L_sym]).
    intros l m x H1 H2. apply X in H1. apply X in H2. destruct H1 as [H1|[-> H1]], H2 as [H2|[E2 H2]].
    + apply (linked_more js); [exact M|]. now apply (B _ _ x).
    + subst x. apply (L_trans _ _ l1); [now apply Y|apply L_sym; now apply Z1].
    + apply (L_trans _ _ l1); [now apply Z1|apply L_sym; now apply Y].
    + apply (L_trans _ _ l1); [now apply Z1|apply L_sym; now apply Z1].
Qed.
Lemma register_joints s h r : u_joints (h_sup (register s h) r) = u_joints (h_sup h r).
Proof. unfold register. destruct (u_reg _); [reflexivity|]. cbn. destruct (Nat.eqb_spec r s) as [-> |]; reflexivity. Qed.
Lemma join_joints w s l1 l2 h h' : join w s l1 l2 h = (h', true) -> exists n,
  (forall r, u_joints (h_sup h' r) = if Nat.eqb r s then u_joints (h_sup h s) ++ [mkjoint n l1 l2] else u_joints (h_sup h r)) /\
  (let a := loc_joint (u_joints (h_sup h s)) l1 in let b := loc_joint (u_joints (h_sup h s)) l2 in
   (a = Some n /\ b = None) \/ (a = None /\ b = Some n) \/ (a = None /\ b = None /\ n = h_new h)).
Proof.
  intro E. apply join_ok in E. destruct E as (_ & n & k & -> & K). cbv zeta in *. exists n. split.
  - intro r. rewrite !add_net_joints. assert (X : h_sup k = h_sup h) by (destruct K as [(_ & _ & ->)|[(_ & _ & ->)|(_ & _ & _ & ->)]]; reflexivity).
    cbn. rewrite X. destruct (Nat.eqb r s); reflexivity.
  - intuition.
Qed.
Lemma do_op_jok w base h o : (forall t, 1 <= w_size w t) -> (base <= h_new h)%nat -> allowed w base o -> good h -> jgood h ->
  (forall s, jok w (u_joints (h_sup h s))) -> forall s, jok w (u_joints (h_sup (do_op w h o) s)).
Proof.
  intros WS BS AL W J P r. destruct o as [s n|s s'|s|s l1 l2]; cbn [do_op].
  - rewrite add_net_joints. apply P.
  - rewrite add_sup_joints. apply P.
  - rewrite register_joints. apply P.
  - destruct (join w s l1 l2 h) as [h' b] eqn:E. cbn [fst]. destruct b; [|apply join_not in E; subst; apply P].
    pose proof (join_ok _ _ _ _ _ _ E) as (T & _). apply join_joints in E. destruct E as (n & E & K). rewrite E. destruct (Nat.eqb_spec r s) as [-> |]; [|apply P]. cbv zeta in K.
    apply jok_add; [apply P|exact T|]. destruct K as [K|[K|(K1 & K2 & ->)]]; [now left|right; now left|right; right]. split; [exact K1|]. split; [exact K2|]. intros j I. apply J in I. lia.
Qed.
Lemma run_jok w sizes os : (forall t, 1 <= w_size w t) -> (forall z, In z sizes -> 1 <= z) -> Forall (allowed w (length sizes)) os ->
  forall s, jok w (u_joints (h_sup (run w os (fresh sizes)) s)).
Proof.
  intros WS H. destruct (fresh_good sizes H) as [A B]. assert (C : (length sizes <= h_new (fresh sizes))%nat) by (cbn; lia).
  assert (D : forall s, jok w (u_joints (h_sup (fresh sizes) s))) by (intro s; split; [intros j []|discriminate]).
  revert A B C D. unfold run. generalize (fresh sizes) as h. induction os as [|o os IH]; intros h A B C D F; [exact D|]. inversion_clear F. cbn [fold_left].
  destruct (do_op_good w (length sizes) h o WS C H0 A B) as (G1 & G2 & G3). apply IH; try assumption. now apply (do_op_jok w (length sizes)).
Qed.

(** Locations share a joint network exactly if they are joined, directly or through others; then they are
    of the same type. *)
Theorem C224_joined : forall w sizes os, (forall t, 1 <= w_size w t) -> (forall z, In z sizes -> 1 <= z) -> Forall (allowed w (length sizes)) os ->
  forall s, let js := u_joints (h_sup (run w os (fresh sizes)) s) in
  forall l m, (linked js l m -> loc_joint js l = loc_joint js m /\ w_type w l = w_type w m) /\
  (loc_joint js l <> None -> loc_joint js l = loc_joint js m -> linked js l m).
Proof.
  intros w sizes os WS H F s. destruct (run_jok w sizes os WS H F s) as [A B]. cbv zeta. set (js := u_joints _) in *. intros l m. split.
  - intro L. induction L as [l|j I|l m _ [IH1 IH2]|l m k _ [IH1 IH2] _ [IH3 IH4]]; [auto| |auto|split; congruence]. destruct (A j I) as (A1 & A2 & A3). split; [congruence|exact A3].
  - intros N E. destruct (loc_joint js l) as [n|] eqn:Q; [|congruence]. now apply (B _ _ n).
Qed.
Print Assumptions C224_joined.
(** A join is refused, and then nothing changes, exactly if the types differ or both locations are in
    joints already. *)
Theorem C224_refused : forall w s l1 l2 h, let js := u_joints (h_sup h s) in
  (snd (join w s l1 l2 h) = false <-> w_type w l1 <> w_type w l2 \/ (loc_joint js l1 <> None /\ loc_joint js l2 <> None)) /\
  (snd (join w s l1 l2 h) = false -> fst (join w s l1 l2 h) = h).
Proof.
  intros w s l1 l2 h. cbv zeta. unfold join. destruct (Z.eqb_spec (w_type w l1) (w_type w l2)) as [Q|Q]; cbn [negb]; [|cbn; tauto].
  destruct (loc_joint _ l1), (loc_joint _ l2); cbn [fst snd]; (split; [split|]); try discriminate; try tauto; intros; try congruence; try (intuition congruence).
Qed.
Print Assumptions C224_refused.
(** A join before the nodes are allocated brings the joint network and the networks of both locations into
    the super-network. *)
Lemma add_net_in s n h : good h -> (n < h_new h)%nat -> u_reg (h_sup h s) = false ->
  t_sup (h_net (add_net s n h) n) = Some s /\ (forall m, t_sup (h_net h m) = Some s -> t_sup (h_net (add_net s n h) m) = Some s) /\ u_reg (h_sup (add_net s n h) s) = false.
Proof.
  intros W L G. unfold add_net. rewrite G. destruct (added s n h) eqn:A.
  - apply added_iff in A. destruct W as (_ & B & _). apply B in A. auto.
  - destruct (t_sup (h_net h n)) as [s'|] eqn:P.
    + assert (N : s <> s'). { intros <-. apply added_not in A. apply A. destruct W as (_ & B & _). now apply B. }
      pose proof (add_sup_kept s s' h W N) as K. rewrite G in K. split; [|split].
      * rewrite (K n s' P), Nat.eqb_refl. reflexivity.
      * intros m Q. rewrite (K m s Q). destruct (Nat.eqb_spec s s'); reflexivity.
      * destruct (add_sup_shape s s' h W N G) as (_ & I2 & _). now rewrite I2.
    + split; [rewrite push_net, Nat.eqb_refl; reflexivity|]. split; [|rewrite push_sup, Nat.eqb_refl; exact G]. intros m Q. rewrite push_net. destruct (Nat.eqb_spec m n); [reflexivity|exact Q].
Qed.
Theorem C224_brought : forall w sizes os s l1 l2 h', (forall t, 1 <= w_size w t) -> (forall z, In z sizes -> 1 <= z) -> Forall (allowed w (length sizes)) os ->
  (w_net w l1 < length sizes)%nat -> (w_net w l2 < length sizes)%nat ->
  let h := run w os (fresh sizes) in u_reg (h_sup h s) = false -> join w s l1 l2 h = (h', true) ->
  exists n, loc_joint (u_joints (h_sup h' s)) l1 = Some n /\ loc_joint (u_joints (h_sup h' s)) l2 = Some n /\
  t_sup (h_net h' n) = Some s /\ t_sup (h_net h' (w_net w l1)) = Some s /\ t_sup (h_net h' (w_net w l2)) = Some s.
Proof.
  intros w sizes os s l1 l2 h' WS H F AL1 AL2. cbv zeta. intros G E. destruct (run_good w sizes os WS H F) as (W & J & BS).
  pose proof (run_jok w sizes (os ++ [Join s l1 l2]) WS H) as JO. set (h := run w os (fresh sizes)) in *.
  assert (R1 : run w (os ++ [Join s l1 l2]) (fresh sizes) = h') by (unfold run; rewrite fold_left_app; cbn [fold_left do_op]; change (fold_left (do_op w) os (fresh sizes)) with h; now rewrite E).
  rewrite R1 in JO. specialize (JO ltac:(apply Forall_app; split; [exact F|repeat constructor; assumption]) s). clear R1. clearbody h.
  pose proof (join_joints _ _ _ _ _ _ E) as (n' & JJ & _). specialize (JJ s). rewrite Nat.eqb_refl in JJ.
  apply join_ok in E. destruct E as (_ & n & k & E & K). cbv zeta in K.
  assert (X : good k /\ (n < h_new k)%nat /\ (length sizes <= h_new k)%nat /\ forall r, h_sup k r = h_sup h r).
  { destruct K as [(K1 & _ & ->)|[(_ & K1 & ->)|(_ & _ & -> & ->)]].
    - apply loc_joint_in in K1. destruct K1 as (j & K1 & <- & _). apply J in K1. auto.
    - apply loc_joint_in in K1. destruct K1 as (j & K1 & <- & _). apply J in K1. auto.
    - split; [now apply create_good|]. cbn [h_new create h_sup]. split; [lia|]. split; [lia|reflexivity]. }
  clear K. destruct X as (X1 & X2 & X3 & X5).
  assert (NN : n' = n). { rewrite E, !add_net_joints in JJ. cbn in JJ. rewrite Nat.eqb_refl in JJ. cbn in JJ. rewrite X5 in JJ. apply app_inv_head in JJ. congruence. }
  subst n'. exists n.
  assert (IJ : In (mkjoint n l1 l2) (u_joints (h_sup h' s))) by (rewrite JJ; apply in_app_iff; right; now left).
  destruct JO as [JA _]. destruct (JA _ IJ) as (JA1 & JA2 & _). split; [exact JA1|]. split; [exact JA2|]. rewrite E.
  set (k1 := add_joint s (mkjoint n l1 l2) k). assert (N1 : h_new k1 = h_new k) by reflexivity.
  assert (G1 : good k1) by (now apply add_joint_good).
  assert (GR : u_reg (h_sup k1 s) = false) by (destruct (add_joint_subs s (mkjoint n l1 l2) k s) as (_ & _ & Q); unfold k1; rewrite Q, X5; exact G).
  assert (G2 : good (add_net s n k1)) by (apply add_net_good; [exact G1|lia]).
  assert (G3 : good (add_net s (w_net w l1) (add_net s n k1))) by (apply add_net_good; [exact G2|rewrite add_net_new; lia]).
  destruct (add_net_in s n k1 G1 ltac:(lia) GR) as (Y1 & Y2 & Y3).
  destruct (add_net_in s (w_net w l1) _ G2 ltac:(rewrite add_net_new; lia) Y3) as (Y4 & Y5 & Y6).
  destruct (add_net_in s (w_net w l2) _ G3 ltac:(rewrite !add_net_new; lia) Y6) as (Y7 & Y8 & _).
  repeat split; auto.
Qed.
Print Assumptions C224_brought.
(** At the initialization of a super-network that has networks, exactly the joined locations are connected,
    each at the offset of its joint network. *)
Theorem C224_connected : forall w sizes os, (forall t, 1 <= w_size w t) -> (forall z, In z sizes -> 1 <= z) -> Forall (allowed w (length sizes)) os ->
  forall s, let h := run w os (fresh sizes) in u_subs (h_sup h s) <> [] ->
  forall l o, In (l, o) (connects s h) <-> exists n, loc_joint (u_joints (h_sup h s)) l = Some n /\ o = t_off (h_net h n).
Proof.
  intros w sizes os WS H F s. cbv zeta. destruct (run_jok w sizes os WS H F s) as [A B]. set (h := run w os (fresh sizes)) in *. intros N l o.
  unfold connects. destruct (u_subs (h_sup h s)) as [|u us]; [congruence|]. rewrite in_flat_map. split.
  - intros (j & I & X). destruct (A j I) as (A1 & A2 & _). exists (j_net j). cbn in X. destruct X as [X|[X|[]]]; injection X as <- <-; auto.
  - intros (x & L & ->). apply loc_joint_in in L. destruct L as (j & I & <- & [<-|<-]); exists j; (split; [exact I|]); cbn; auto.
Qed.
Print Assumptions C224_connected.
Definition world1 : world := mkworld (fun l => l) (fun _ => 0) (fun _ => 2).
Example C224_ex : let os := [Join 0 0 1; Join 0 1 2; Register 0] in Forall (allowed world1 3) os /\
  let h := run world1 os (fresh [3; 4; 5]) in connects 0 h = [(0%nat, 0); (1%nat, 0); (1%nat, 0); (2%nat, 0)] /\
  u_subs (h_sup h 0%nat) = [3; 0; 1; 2]%nat /\ map (fun n => t_off (h_net h n)) [0; 1; 2; 3]%nat = [1; 3; 6; 0].
Proof. split; [repeat constructor; cbn; lia|]. vm_compute. auto. Qed.
(** Refuted: joined locations get connected when their super-network is merged into another.  Neither
    initialization connects them. *)
Theorem C224_absorbed_refuted : exists os, Forall (allowed world1 2) os /\ let h := run world1 os (fresh [3; 4]) in
  loc_joint (u_joints (h_sup h 0%nat)) 0 = Some 2%nat /\ t_sup (h_net h 0%nat) = Some 1%nat /\ t_sup (h_net h 2%nat) = Some 1%nat /\
  u_reg (h_sup h 1%nat) = true /\ connects 0 h = [] /\ connects 1 h = [].
Proof. exists [Join 0 0 1; AddSup 1 0; Register 1; Register 0]. split; [repeat constructor; cbn; lia|]. vm_compute. repeat split; reflexivity. Qed.
Print Assumptions C224_absorbed_refuted.
(** Refuted: a location is connected to nodes of its own joint network.  A join after the allocation is
    kept though its network is not added, and it connects to another network's nodes. *)
Theorem C224_late_refuted : exists os, Forall (allowed world1 2) os /\ let h := run world1 os (fresh [3; 4]) in
  u_subs (h_sup h 0%nat) = [0; 1]%nat /\ loc_joint (u_joints (h_sup h 0%nat)) 0 = Some 2%nat /\ t_sup (h_net h 2%nat) = None /\
  connects 0 h = [(0%nat, 0); (1%nat, 0)] /\ t_off (h_net h 0%nat) = 0.
Proof. exists [AddNet 0 0; AddNet 0 1; Register 0; Join 0 0 1]. split; [repeat constructor; cbn; lia|]. vm_compute. repeat split; reflexivity. Qed.
Print Assumptions C224_late_refuted.
(** Refuted: joins in different super-networks connect.  The first joint is forgotten, though both
    super-networks are merged. *)
Theorem C224_across_refuted : exists os, Forall (allowed world1 3) os /\ let h := run world1 os (fresh [3; 4; 5]) in
  (forall n, In n [0; 1; 2; 3; 4]%nat -> t_sup (h_net h n) = Some 1%nat) /\ map fst (connects 1 h) = [0; 2]%nat /\ connects 0 h = [].
Proof.
  exists [Join 0 0 1; Join 1 0 2; Register 1]. split; [repeat constructor; cbn; lia|]. cbv zeta. split; [|vm_compute; auto].
  intros q I. repeat (destruct I as [<-|I]; [vm_compute; reflexivity|]). destruct I.
Qed.
Print Assumptions C224_across_refuted.

(** The joint index of a location is that of the first joint with its network. *)
Lemma push_index s n h m : t_index (h_net (push s n h) m) = t_index (h_net h m).
Proof. rewrite push_net. destruct (Nat.eqb_spec m n) as [-> |]; reflexivity. Qed.
Lemma offset_index n o x h m : t_index (h_net (set_offset n o x h) m) = t_index (h_net h m).
Proof. cbn. destruct (Nat.eqb_spec m n) as [-> |]; reflexivity. Qed.
Lemma add_sup_index s s' h m : t_index (h_net (add_sup s s' h) m) = t_index (h_net h m).
Proof.
  unfold add_sup. destruct (u_reg _); [reflexivity|]. assert (X : forall l h, t_index (h_net (fold_left (move s) l h) m) = t_index (h_net h m)).
  { induction l as [|n l IH]; intro k; [reflexivity|]. cbn [fold_left]. rewrite IH. unfold move. destruct (added _ _ _); [|rewrite push_index]; apply offset_index. }
  apply X.
Qed.
Lemma add_net_index s n h m : t_index (h_net (add_net s n h) m) = t_index (h_net h m).
Proof. unfold add_net. destruct (u_reg _); [reflexivity|]. destruct (added _ _ _); [reflexivity|]. destruct (t_sup _); [apply add_sup_index|apply push_index]. Qed.
Definition iok (h : heap) : Prop := forall s j, In j (u_joints (h_sup h s)) -> exists i j', t_index (h_net h (j_net j)) = Z.of_nat i /\
  nth_error (u_joints (h_sup h s)) i = Some j' /\ j_net j' = j_net j /\ forall k j'', (k < i)%nat -> nth_error (u_joints (h_sup h s)) k = Some j'' -> j_net j'' <> j_net j.
Lemma do_op_iok w h o : jgood h -> iok h -> iok (do_op w h o).
Proof.
  intros J P r j. destruct o as [s n|s s'|s|s l1 l2]; cbn [do_op].
  - rewrite add_net_joints, add_net_index. apply P.
  - rewrite add_sup_joints, add_sup_index. apply P.
  - rewrite register_joints. unfold register. destruct (u_reg _); apply P.
  - destruct (join w s l1 l2 h) as [h' b] eqn:E. cbn [fst]. destruct b; [|apply join_not in E; subst; apply P].
    apply join_ok in E. destruct E as (_ & n & k & -> & K). cbv zeta in K. rewrite !add_net_joints, !add_net_index.
    assert (X : h_sup k = h_sup h) by (destruct K as [(_ & _ & ->)|[(_ & _ & ->)|(_ & _ & _ & ->)]]; reflexivity).
    assert (Y : forall m, (m < h_new h)%nat -> t_index (h_net k m) = t_index (h_net h m)).
    { intros m M. destruct K as [(_ & _ & ->)|[(_ & _ & ->)|(_ & _ & _ & ->)]]; try reflexivity. cbn. destruct (Nat.eqb_spec m (h_new h)); [lia|reflexivity]. }
    change (h_net (add_joint s (mkjoint n l1 l2) k)) with (h_net k). cbn [add_joint h_sup set_sup]. rewrite X. destruct (Nat.eqb_spec r s) as [-> |R1].
    + cbn [u_joints].
      assert (OLD : forall q, In q (u_joints (h_sup h s)) -> exists i j', t_index (h_net k (j_net q)) = Z.of_nat i /\ nth_error (u_joints (h_sup h s) ++ [mkjoint n l1 l2]) i = Some j' /\ j_net j' = j_net q /\
        forall k0 j'', (k0 < i)%nat -> nth_error (u_joints (h_sup h s) ++ [mkjoint n l1 l2]) k0 = Some j'' -> j_net j'' <> j_net q).
      { intros q I. destruct (P s q I) as (i & j' & I1 & I2 & I3 & I4). exists i, j'. rewrite Y by (now apply (J s)). assert (i < length (u_joints (h_sup h s)))%nat by (apply nth_error_Some; congruence).
        rewrite nth_error_app1 by assumption. repeat split; try assumption. intros k0 j'' L. rewrite nth_error_app1 by lia. now apply I4. }
      intro I. apply in_app_iff in I. destruct I as [I|[<-|[]]]; [now apply OLD|]. cbn [j_net].
      destruct K as [(K1 & _ & ->)|[(_ & K1 & ->)|(_ & _ & -> & ->)]].
      * apply loc_joint_in in K1. destruct K1 as (q & K1 & <- & _). now apply OLD.
      * apply loc_joint_in in K1. destruct K1 as (q & K1 & <- & _). now apply OLD.
      * exists (length (u_joints (h_sup h s))), (mkjoint (h_new h) l1 l2). split; [cbn; now rewrite Nat.eqb_refl|]. split; [rewrite nth_error_app2 by lia; rewrite Nat.sub_diag; reflexivity|]. split; [reflexivity|].
        intros k0 j'' L Q. rewrite nth_error_app1 in Q by exact L. apply nth_error_In in Q. apply J in Q. lia.
    + intro I. rewrite Y by (now apply (J r)). now apply P.
Qed.
Theorem C224_index : forall w sizes os, (forall t, 1 <= w_size w t) -> (forall z, In z sizes -> 1 <= z) -> Forall (allowed w (length sizes)) os ->
  forall s l n, let h := run w os (fresh sizes) in let js := u_joints (h_sup h s) in loc_joint js l = Some n ->
  exists i j, t_index (h_net h n) = Z.of_nat i /\ nth_error js i = Some j /\ j_net j = n /\ forall k j', (k < i)%nat -> nth_error js k = Some j' -> j_net j' <> n.
Proof.
  intros w sizes os WS H F s l n. cbv zeta.
  assert (X : iok (run w os (fresh sizes))).
  { destruct (fresh_good sizes H) as [A B]. assert (C : (length sizes <= h_new (fresh sizes))%nat) by (cbn; lia). assert (D : iok (fresh sizes)) by (intros r j []).
    revert A B C D F. unfold run. generalize (fresh sizes) as h. induction os as [|o os IH]; intros h A B C D F; [exact D|]. inversion_clear F. cbn [fold_left].
    destruct (do_op_good w (length sizes) h o WS C H0 A B) as (G1 & G2 & G3). apply IH; try assumption. now apply do_op_iok. }
  intro L. apply loc_joint_in in L. destruct L as (j & I & <- & _). exact (X s j I).
Qed.
Print Assumptions C224_index.
