(** C23, C24, C25: link port map and flux transport. *)
From Coq Require Import Reals Lra Lia List Arith Bool ZArith.
From Verif Require Import Num Loops Links.
Import ListNotations.

(** ** Specification *)
Definition is_port (P : nat) (p : Z) : Prop := (0 <= p < Z.of_nat P)%Z.
Definition is_node (G n : Z) : Prop := (0 <= n <= G)%Z.

(** A node map is sound: every port on an existing node, no two ports on the
    same node unless that node is ground. *)
Definition sound_map (P : nat) (G : Z) (m : Z -> Z) : Prop :=
  (forall p, is_port P p -> is_node G (m p)) /\
  (forall p q, is_port P p -> is_port P q -> p <> q -> m p = m q -> m p = G).

(** The pointers and the admittance map agree with the node map. *)
Definition in_step (P : nat) (G : Z) (l : plink) : Prop :=
  (forall p, is_port P p -> l_ptr l p = Some (l_map l p)) /\
  (forall p q, is_port P p -> is_port P q ->
     l_amap l (p * Z.of_nat P + q)%Z =
       if orb (Z.eqb (l_map l p) G) (Z.eqb (l_map l q) G) then (-1)%Z
       else (l_map l p * G + l_map l q)%Z).

(** What an observer can see of the port mapping. *)
Definition same_mapping (P : nat) (a b : plink) : Prop :=
  (forall p, l_map a p = l_map b p) /\ (forall p, l_def a p = l_def b p) /\
  l_upd a = l_upd b /\ l_lock a = l_lock b /\ l_ub a = l_ub b /\
  (forall p, is_port P p -> l_ptr a p = l_ptr b p) /\
  (forall p q, is_port P p -> is_port P q ->
     l_amap a (p * Z.of_nat P + q)%Z = l_amap b (p * Z.of_nat P + q)%Z).

(** When a request must be granted. *)
Definition grantable (P : nat) (G : Z) (rules : plink -> Z -> Z -> bool) (l : plink) (p n : Z) : Prop :=
  l_lock l = false /\ is_port P p /\ is_node G n /\
  (forall q, is_port P q -> q <> p -> l_map l q = n -> n = G) /\ rules l p n = true.

(** ** Lemmas *)
Lemma setz_same {A} (m : Z -> A) i v : setz m i v i = v.
Proof. unfold setz. now rewrite Z.eqb_refl. Qed.
Lemma setz_other {A} (m : Z -> A) i j v : j <> i -> setz m i v j = m j.
Proof. unfold setz. intros H. destruct (Z.eqb_spec j i); congruence. Qed.

Section LINKP.
Variable P : nat.
Variable G : Z.
Variable rules : plink -> Z -> Z -> bool.
Notation set_port := (set_port P G rules).
Notation registered := (register_nodes P G rules).

Lemma valid_port_iff p : valid_port P p = true <-> is_port P p.
Proof. unfold valid_port, is_port. rewrite andb_true_iff, !Z.ltb_lt. lia. Qed.

Lemma valid_node_iff n : valid_node G n = true <-> is_node G n.
Proof. unfold valid_node, is_node. rewrite andb_true_iff, Z.ltb_lt, Z.leb_le. lia. Qed.

Lemma no_duplicate_iff l p n :
  is_node G n ->
  no_duplicate P G l p n = true <->
  (forall q, is_port P q -> q <> p -> l_map l q = n -> n = G).
Proof.
  intros Hn. unfold no_duplicate.
  match goal with |- loop ?f _ _ _ = true <-> _ =>
    pose proof (loop_inv (fun m (r : bool) => r = true <->
       forall q, (0 <= q < Z.of_nat m)%Z -> q <> p -> l_map l q = n -> n = G) f P 0 true) as HL end.
  apply HL; clear HL.
  - split; [intros _ q Hq; lia | auto].
  - intros i s Hi IH.
    destruct (Z.eqb_spec p (Z.of_nat i)) as [Hp|Hp]; cbn [negb andb].
    + rewrite IH. split; intros H q Hq Hne; apply H; auto; lia.
    + destruct (Z.eqb_spec (l_map l (Z.of_nat i)) n) as [Hm|Hm]; cbn [negb andb].
      * destruct (Z.ltb_spec n G) as [Hl|Hl].
        -- split; [intros Hc; discriminate Hc|]. intros H. exfalso.
           specialize (H (Z.of_nat i)). unfold is_node in Hn. 
           assert (n = G) by (apply H; auto; lia). lia.
        -- rewrite IH. unfold is_node in Hn. split; intros H q Hq Hne Hq2; lia.
      * rewrite IH. split; intros H q Hq Hne Hq2.
        -- destruct (Z.eq_dec q (Z.of_nat i)) as [->|]; [contradiction|]. apply (H q); auto; lia.
        -- apply (H q); auto; lia.
Qed.

Lemma granted_iff l p n :
  negb (l_lock l) && check_port_rules P G rules l p n = true <-> grantable P G rules l p n.
Proof.
  unfold check_port_rules, grantable. rewrite andb_true_iff, negb_true_iff.
  destruct (valid_port P p) eqn:Hp; cbn [negb].
  2:{ assert (~ is_port P p) by (rewrite <- valid_port_iff; congruence).
      split; [intros [_ Hc]; discriminate Hc | tauto]. }
  destruct (valid_node G n) eqn:Hn; cbn [negb].
  2:{ assert (~ is_node G n) by (rewrite <- valid_node_iff; congruence).
      split; [intros [_ Hc]; discriminate Hc | tauto]. }
  apply valid_port_iff in Hp. apply valid_node_iff in Hn.
  pose proof (no_duplicate_iff l p n Hn) as Hd.
  destruct (no_duplicate P G l p n).
  - split; [|tauto]. intros [H1 H2]. repeat (split; auto). now apply Hd.
  - split; [intros [_ Hc]; discriminate Hc|]. intros (_ & _ & _ & H & _). now apply Hd in H.
Qed.

Lemma update_admittance_map_spec l p q : is_port P p -> is_port P q ->
  l_amap (update_admittance_map P G l) (p * Z.of_nat P + q)%Z =
    if Z.eqb (l_map l p) G || Z.eqb (l_map l q) G then (-1)%Z else (l_map l p * G + l_map l q)%Z.
Proof.
  intros Hp Hq. unfold update_admittance_map, with_amap; cbn [l_amap].
  set (val := fun p q => if Z.eqb (l_map l p) G || Z.eqb (l_map l q) G then (-1)%Z
                         else (l_map l p * G + l_map l q)%Z).
  change (if Z.eqb (l_map l p) G || Z.eqb (l_map l q) G then (-1)%Z
          else (l_map l p * G + l_map l q)%Z) with (val p q).
  match goal with |- loop ?f _ _ ?s0 _ = _ =>
    pose proof (loop_inv (fun m (am : Z -> Z) => forall a b,
       (0 <= a < Z.of_nat m)%Z -> is_port P b -> am (a * Z.of_nat P + b)%Z = val a b) f P 0 s0) as HL end.
  apply HL; clear HL; auto.
  - intros a b Ha. lia.
  - intros i am Hi IH a b Ha Hb.
    match goal with |- loop ?f _ _ ?s0 _ = _ =>
      pose proof (loop_inv (fun m (am' : Z -> Z) =>
         (forall b, (0 <= b < Z.of_nat m)%Z -> am' (Z.of_nat i * Z.of_nat P + b)%Z = val (Z.of_nat i) b) /\
         (forall a b, (0 <= a < Z.of_nat i)%Z -> is_port P b ->
            am' (a * Z.of_nat P + b)%Z = val a b)) f P 0 s0) as HL end.
    destruct HL as [H1 H2].
    + split; [intros b' Hb'; lia | exact IH].
    + intros j am' Hj [I1 I2]. split.
      * intros b' Hb'. destruct (Z.eq_dec b' (Z.of_nat j)) as [-> | Hne].
        -- now rewrite setz_same.
        -- rewrite setz_other by lia. apply I1. lia.
      * intros a' b' Ha' Hb'. unfold is_port in *. rewrite setz_other by nia. now apply I2.
    + destruct (Z.eq_dec a (Z.of_nat i)) as [-> | Hne].
      * apply H1. exact Hb.
      * apply H2; [lia | exact Hb].
Qed.

Lemma set_port_map l p n :
  l_map (fst (set_port l p n)) =
  if negb (l_lock l) && check_port_rules P G rules l p n && negb (Z.eqb n (l_map l p))
  then setz (l_map l) p n else l_map l.
Proof.
  unfold Links.set_port; cbn [fst]. unfold update_node_pointer.
  destruct (negb (l_lock l) && check_port_rules P G rules l p n && negb (Z.eqb n (l_map l p)));
  destruct (valid_port P p); reflexivity.
Qed.

Lemma set_port_frame l p n :
  let l' := fst (set_port l p n) in
  l_def l' = l_def l /\ l_lock l' = l_lock l /\ l_sel l' = l_sel l /\
  l_seln l' = l_seln l /\ l_ctl l' = l_ctl l.
Proof.
  unfold Links.set_port; cbn [fst]. unfold update_node_pointer.
  destruct (negb (l_lock l) && check_port_rules P G rules l p n && negb (Z.eqb n (l_map l p)));
  destruct (valid_port P p); cbn; auto.
Qed.

Lemma set_port_granted l p n : grantable P G rules l p n -> 
  forall q, l_map (fst (set_port l p n)) q = if Z.eqb q p then n else l_map l q.
Proof.
  intros Hg q. rewrite set_port_map. apply granted_iff in Hg. rewrite Hg. cbn [andb].
  destruct (Z.eqb_spec n (l_map l p)); cbn [negb]; [|reflexivity].
  destruct (Z.eqb_spec q p); subst; auto.
Qed.

Lemma set_port_refused l p n : ~ grantable P G rules l p n ->
  l_map (fst (set_port l p n)) = l_map l.
Proof.
  intros Hg. rewrite set_port_map. rewrite <- granted_iff in Hg.
  destruct (negb (l_lock l) && check_port_rules P G rules l p n); [congruence | reflexivity].
Qed.

Lemma grantable_dec l p n : grantable P G rules l p n \/ ~ grantable P G rules l p n.
Proof.
  rewrite <- granted_iff.
  destruct (negb (l_lock l) && check_port_rules P G rules l p n); [now left | right; congruence].
Qed.

Lemma set_port_ptr l p n q : is_port P q ->
  l_ptr (fst (set_port l p n)) q =
  if Z.eqb q p then Some (l_map (fst (set_port l p n)) p) else l_ptr l q.
Proof.
  intros Hq. rewrite set_port_map. unfold Links.set_port; cbn [fst].
  unfold update_node_pointer.
  destruct (negb (l_lock l) && check_port_rules P G rules l p n && negb (Z.eqb n (l_map l p)));
  destruct (valid_port P p) eqn:Hp;
  cbn [update_admittance_map with_amap l_ptr with_ptr with_map l_map]; unfold setz;
  try reflexivity;
  destruct (Z.eqb_spec q p); auto; subst; apply valid_port_iff in Hq; congruence.
Qed.

Lemma set_port_amap l p n a b : is_port P a -> is_port P b ->
  let l' := fst (set_port l p n) in
  l_amap l' (a * Z.of_nat P + b)%Z =
    if Z.eqb (l_map l' a) G || Z.eqb (l_map l' b) G then (-1)%Z else (l_map l' a * G + l_map l' b)%Z.
Proof.
  intros Ha Hb. unfold Links.set_port; cbn [fst].
  match goal with |- context [update_admittance_map P G ?x] => generalize x end.
  intros x. cbn zeta. rewrite update_admittance_map_spec by assumption. reflexivity.
Qed.

Lemma set_port_ub l p n :
  (is_port P p -> is_node G (l_map (fst (set_port l p n)) p)) ->
  l_ub (fst (set_port l p n)) = l_ub l.
Proof.
  rewrite set_port_map. unfold Links.set_port; cbn [fst]. unfold update_node_pointer.
  intros H.
  destruct (valid_port P p) eqn:Hp.
  - apply valid_port_iff in Hp. specialize (H Hp). apply valid_node_iff in H.
    destruct (negb (l_lock l) && check_port_rules P G rules l p n && negb (Z.eqb n (l_map l p)));
    cbn [update_admittance_map with_amap l_ub with_ptr with_map l_map];
    rewrite H; now rewrite orb_false_r.
  - destruct (negb (l_lock l) && check_port_rules P G rules l p n && negb (Z.eqb n (l_map l p)));
    reflexivity.
Qed.

Lemma set_port_upd l p n :
  l_upd (fst (set_port l p n)) =
  l_upd l || (negb (l_lock l) && check_port_rules P G rules l p n && negb (Z.eqb n (l_map l p))).
Proof.
  unfold Links.set_port; cbn [fst]. unfold update_node_pointer.
  destruct (negb (l_lock l) && check_port_rules P G rules l p n && negb (Z.eqb n (l_map l p)));
  destruct (valid_port P p); cbn; now rewrite ?orb_true_r, ?orb_false_r.
Qed.

(** The run-time invariant. *)
Definition inv (l : plink) : Prop :=
  sound_map P G (l_map l) /\ in_step P G l /\ l_ub l = false /\
  (forall p, is_port P p -> is_node G (l_def l p)).

Lemma set_port_inv l p n : inv l -> inv (fst (set_port l p n)).
Proof.
  intros ([S1 S2] & [I1 I2] & Hub & Hd).
  assert (HS : sound_map P G (l_map (fst (set_port l p n)))).
  { destruct (grantable_dec l p n) as [Hg|Hg].
    - pose proof (set_port_granted l p n Hg) as Hm. destruct Hg as (_ & Hp & Hn & Hdup & _).
      split.
      + intros q Hq. rewrite Hm. destruct (Z.eqb_spec q p); auto.
      + intros a b Ha Hb Hne. rewrite !Hm.
        destruct (Z.eqb_spec a p); destruct (Z.eqb_spec b p); subst; try congruence.
        * intros ->. apply (Hdup b); auto.
        * intros He. rewrite He. apply (Hdup a); auto.
        * intros He. apply (S2 a b); auto.
    - rewrite set_port_refused by assumption. split; assumption. }
  split; [exact HS|]. split; [split|split].
  - intros q Hq. rewrite set_port_ptr by assumption.
    destruct (Z.eqb_spec q p) as [->|Hne]; [reflexivity|]. rewrite I1 by assumption.
    destruct (grantable_dec l p n) as [Hg|Hg].
    + rewrite set_port_granted by assumption. destruct (Z.eqb_spec q p); congruence.
    + now rewrite set_port_refused.
  - intros a b Ha Hb. now apply set_port_amap.
  - rewrite set_port_ub; [exact Hub|]. intros Hp. now apply HS.
  - destruct (set_port_frame l p n) as [-> _]. exact Hd.
Qed.

Lemma inv_ext l l' : inv l -> l_map l' = l_map l -> l_def l' = l_def l -> l_ptr l' = l_ptr l ->
  l_amap l' = l_amap l -> l_ub l' = l_ub l -> inv l'.
Proof.
  intros (A & [B1 B2] & C & D) H1 H2 H3 H4 H5. unfold inv, in_step.
  rewrite H1, H2, H3, H4, H5. auto.
Qed.

(** Registering nodes: default map takes the given values; each port either
    takes its node or keeps what it had. *)
Lemma register_nodes_def pm l :
  let l' := registered pm l in
  (forall p, is_port P p -> l_def l' p = pm p) /\ (forall p, ~ is_port P p -> l_def l' p = l_def l p) /\
  l_lock l' = l_lock l.
Proof.
  cbn zeta. unfold register_nodes.
  match goal with |- context [loop ?f _ _ ?s0] =>
    pose proof (loop_inv (fun m (l' : plink) =>
      (forall p, (0 <= p < Z.of_nat m)%Z -> l_def l' p = pm p) /\
      (forall p, ~ (0 <= p < Z.of_nat m)%Z -> l_def l' p = l_def l p) /\ l_lock l' = l_lock l) f P 0 s0) as HL end.
  apply HL; clear HL.
  - repeat split; auto. intros p Hp. lia.
  - intros i l' Hi (I1 & I2 & I3).
    match goal with |- context [set_port ?x ?p ?n] => destruct (set_port_frame x p n) as (-> & -> & _) end.
    cbn [with_def l_def l_lock]. repeat split; [| | exact I3].
    + intros p Hp. destruct (Z.eq_dec p (Z.of_nat i)) as [->|]; [apply setz_same|].
      rewrite setz_other by assumption. apply I1. lia.
    + intros p Hp. rewrite setz_other by lia. apply I2. lia.
Qed.

Lemma register_nodes_inv pm l : (forall p, is_port P p -> is_node G (pm p)) ->
  inv l -> inv (registered pm l).
Proof.
  intros Hpm Hl. unfold register_nodes.
  match goal with |- inv (loop ?f _ _ ?s0) =>
    pose proof (loop_inv (fun m (l' : plink) => inv l') f P 0 s0) as HL end.
  apply HL; clear HL; auto.
  intros i l' Hi IH. apply set_port_inv.
  destruct IH as (A & B & C & D). split; [exact A|]. split; [exact B|]. split; [exact C|].
  cbn [with_def l_def]. intros p Hp. unfold setz.
  destruct (Z.eqb_spec p (Z.of_nat i)); subst; auto.
Qed.

Lemma act_inv l q : inv l -> inv (act P G rules l q).
Proof.
  intros Hl. destruct q as [p n|p n c| |b| |]; cbn [act].
  - now apply set_port_inv.
  - now apply (inv_ext l).
  - unfold process_user.
    match goal with |- context [l_ctl ?x] =>
      match x with l => fail 1 | _ => set (l1 := x) end end.
    assert (H1 : inv l1).
    { unfold l1. destruct (l_ctl l); [exact Hl | exact Hl | exact Hl | destruct (valid_port P (l_sel l)) |];
      now apply (inv_ext l). }
    clearbody l1. destruct (l_ctl l1); auto.
    pose proof (set_port_inv l1 (l_sel l1) (l_seln l1) H1) as H2.
    destruct (set_port l1 (l_sel l1) (l_seln l1)) as [l2 r]; cbn [fst] in H2.
    now apply (inv_ext l2).
  - now apply (inv_ext l).
  - now apply (inv_ext l).
  - unfold restart_ports. apply register_nodes_inv; [apply Hl|]. now apply (inv_ext l).
Qed.

Lemma acts_inv qs : forall l, inv l -> inv (acts P G rules l qs).
Proof.
  induction qs as [|q qs IH]; intros l Hl; cbn; [exact Hl|]. apply IH. now apply act_inv.
Qed.

(** Initialisation, port by port. *)
Lemma register_blank pm :
  let l := registered pm (with_lock blank false) in
  (forall p, is_port P p -> l_map l p = pm p \/ l_map l p = (-1)%Z) /\
  (forall p, is_port P p -> l_ptr l p = Some (l_map l p)) /\
  (forall p, is_port P p -> l_map l p <> (-1)%Z -> is_node G (l_map l p)) /\
  (forall p q, is_port P p -> is_port P q -> p <> q -> l_map l p <> (-1)%Z ->
     l_map l p = l_map l q -> l_map l p = G) /\
  ((P > 0)%nat -> in_step P G l) /\
  ((forall p, is_port P p -> l_map l p <> (-1)%Z) -> l_ub l = false).
Proof.
  cbn zeta. unfold register_nodes.
  match goal with |- context [loop ?f _ _ ?s0] =>
    pose proof (loop_inv (fun m (l : plink) =>
      l_lock l = false /\
      (forall p, (0 <= p < Z.of_nat m)%Z -> l_map l p = pm p \/ l_map l p = (-1)%Z) /\
      (forall p, ~ (0 <= p < Z.of_nat m)%Z -> l_map l p = (-1)%Z) /\
      (forall p, (0 <= p < Z.of_nat m)%Z -> l_ptr l p = Some (l_map l p)) /\
      (forall p, is_port P p -> l_map l p <> (-1)%Z -> is_node G (l_map l p)) /\
      (forall p q, is_port P p -> is_port P q -> p <> q -> l_map l p <> (-1)%Z ->
         l_map l p = l_map l q -> l_map l p = G) /\
      ((m > 0)%nat -> forall p q, is_port P p -> is_port P q ->
         l_amap l (p * Z.of_nat P + q)%Z =
         if orb (Z.eqb (l_map l p) G) (Z.eqb (l_map l q) G) then (-1)%Z
         else (l_map l p * G + l_map l q)%Z) /\
      ((forall p, (0 <= p < Z.of_nat m)%Z -> l_map l p <> (-1)%Z) -> l_ub l = false)) f P 0 s0) as HL end.
  destruct HL as (_ & A & _ & B & C & D & E & F).
  - cbn. repeat split; try congruence; try lia; intros; lia.
  - intros i l Hi (I0 & I1 & I2 & I3 & I4 & I5 & I6 & I7).
    set (zi := Z.of_nat i). set (x := with_def l (setz (l_def l) zi (pm zi))).
    assert (Hzi : is_port P zi) by (unfold zi, is_port; lia).
    assert (Hx : l_map x = l_map l) by reflexivity.
    assert (Hmap : (l_map (fst (set_port x zi (pm zi))) = l_map l) \/
                   (grantable P G rules x zi (pm zi) /\ forall q, l_map (fst (set_port x zi (pm zi))) q
                        = if Z.eqb q zi then pm zi else l_map l q)).
    { destruct (grantable_dec x zi (pm zi)) as [Hg|Hg].
      - right. split; [exact Hg|]. intros q. rewrite set_port_granted by exact Hg. now rewrite Hx.
      - left. now rewrite set_port_refused. }
    repeat split.
    + destruct (set_port_frame x zi (pm zi)) as (_ & -> & _). exact I0.
    + intros p Hp. destruct Hmap as [-> | [Hg Hm]].
      * destruct (Z.eq_dec p zi) as [->|]; [right; apply I2; lia | apply I1; unfold zi in *; lia].
      * rewrite Hm. destruct (Z.eqb_spec p zi); [subst; auto|]. apply I1; unfold zi in *; lia.
    + intros p Hp. destruct Hmap as [-> | [Hg Hm]]; [apply I2; lia|].
      rewrite Hm. destruct (Z.eqb_spec p zi); [unfold zi in *; lia|]. apply I2; lia.
    + intros p Hp. assert (is_port P p) by (unfold is_port; lia).
      rewrite set_port_ptr by assumption. destruct (Z.eqb_spec p zi) as [->|Hne]; [reflexivity|].
      change (l_ptr x) with (l_ptr l). rewrite I3 by (unfold zi in *; lia).
      destruct Hmap as [-> | [Hg Hm]]; [reflexivity|]. rewrite Hm.
      destruct (Z.eqb_spec p zi); congruence.
    + revert H0. destruct Hmap as [-> | [Hg Hm]]; [intros; now apply I4|].
      rewrite Hm. destruct (Z.eqb_spec p zi); [intros _; apply Hg | intros; now apply I4].
    + revert H0. destruct Hmap as [-> | [Hg Hm]]; [intros; now apply I4|].
      rewrite Hm. destruct (Z.eqb_spec p zi); [intros _; apply Hg | intros; now apply I4].
    + intros p q Hp Hq Hne. destruct Hmap as [-> | [Hg Hm]]; [intros; now apply (I5 p q)|].
      rewrite !Hm. destruct Hg as (_ & _ & _ & Hdup & _). rewrite Hx in Hdup.
      destruct (Z.eqb_spec p zi); destruct (Z.eqb_spec q zi); subst; try congruence.
      * intros _ He. apply (Hdup q); auto.
      * intros _ He. rewrite He. apply (Hdup p); auto.
      * intros; now apply (I5 p q).
    + intros _ p q Hp Hq. now apply set_port_amap.
    + intros Hall. assert (Hub : is_node G (l_map (fst (set_port x zi (pm zi))) zi)).
      { specialize (Hall zi ltac:(unfold zi; lia)). revert Hall.
        destruct Hmap as [-> | [Hg Hm]]; [intros; now apply I4|].
        rewrite Hm, Z.eqb_refl. intros _. apply Hg. }
      rewrite set_port_ub by (intros; exact Hub). apply I7. intros p Hp.
      specialize (Hall p ltac:(lia)). revert Hall.
      destruct Hmap as [-> | [Hg Hm]]; [auto|]. rewrite Hm.
      destruct (Z.eqb_spec p zi); [unfold zi in *; lia | auto].
  - split; [exact A|]. split; [exact B|]. split; [exact C|]. split; [exact D|].
    split; [|exact F]. intros HP. split; [exact B|]. exact (E HP).
Qed.

Lemma validate_nodes_iff l : validate_nodes P l = true <->
  forall p, is_port P p -> (0 <= l_map l p)%Z /\ l_ptr l p <> None.
Proof.
  unfold validate_nodes.
  match goal with |- loop ?f _ _ ?s0 = true <-> _ =>
    pose proof (loop_inv (fun m (r : bool) => r = true <->
      forall p, (0 <= p < Z.of_nat m)%Z -> (0 <= l_map l p)%Z /\ l_ptr l p <> None) f P 0 s0) as HL end.
  apply HL; clear HL.
  - split; [intros _ p Hp; lia | auto].
  - intros i r Hi IH. rewrite !andb_true_iff, IH, negb_true_iff, Z.ltb_ge. split.
    + intros [[H1 H2] H3] p Hp. destruct (Z.eq_dec p (Z.of_nat i)) as [->|]; [|apply H1; lia].
      split; [exact H2|]. destruct (l_ptr l (Z.of_nat i)); [discriminate | discriminate H3].
    + intros H. split; [split|].
      * intros p Hp. apply H. lia.
      * apply H. lia.
      * destruct (l_ptr l (Z.of_nat i)) eqn:Ho; [reflexivity|]. exfalso.
        apply (proj2 (H (Z.of_nat i) ltac:(lia))). exact Ho.
Qed.

Lemma initialize_inv locked pm l : initialize_ports P G rules locked pm = Some l ->
  inv l /\ (forall p, is_port P p -> l_map l p = pm p) /\ (forall p, is_port P p -> l_def l p = pm p).
Proof.
  unfold initialize_ports.
  destruct ((0 <? P)%nat) eqn:HP; cbn [andb]; [|intros Hc; discriminate Hc].
  apply Nat.ltb_lt in HP.
  set (l0 := registered pm (with_lock blank false)).
  destruct (validate_nodes P (with_lock l0 locked)) eqn:Hv; [|intros Hc; discriminate Hc].
  intros He.
  assert (Hl : l = with_user (with_map (with_lock l0 locked) (l_map l0) false) (-1)%Z (-1)%Z PReady)
    by (symmetry; exact (f_equal (fun o => match o with Some y => y | None => l end) He)). clear He.
  rewrite validate_nodes_iff in Hv. cbn [with_lock l_map l_ptr] in Hv.
  destruct (register_blank pm) as (A & B & C & D & E & F). fold l0 in A, B, C, D, E, F.
  destruct (register_nodes_def pm (with_lock blank false)) as (K1 & _). fold l0 in K1.
  assert (Hn : forall p, is_port P p -> l_map l0 p <> (-1)%Z).
  { intros p Hp. destruct (Hv p Hp). lia. }
  assert (Hm : forall p, is_port P p -> l_map l0 p = pm p).
  { intros p Hp. destruct (A p Hp); [assumption|]. exfalso. now apply (Hn p Hp). }
  subst l. split; [|split; [exact Hm | exact K1]].
  apply (inv_ext l0); try reflexivity.
  split; [split|split; [|split]].
  - intros p Hp. apply C; auto.
  - intros p q Hp Hq Hne. apply D; auto.
  - apply E. lia.
  - apply F. exact Hn.
  - intros p Hp. rewrite K1 by assumption. rewrite <- Hm by assumption. apply C; auto.
Qed.
End LINKP.

(** ** C23 *)
Theorem C23_port_map_stays_valid :
  forall (P : nat) (G : Z) rules locked ports l0 qs,
  initialize_ports P G rules locked ports = Some l0 ->
  let l := acts P G rules l0 qs in
  sound_map P G (l_map l) /\ in_step P G l /\ l_ub l = false.
Proof.
  intros P G rules locked ports l0 qs Hi l.
  destruct (initialize_inv P G rules _ _ _ Hi) as [H0 _].
  pose proof (acts_inv P G rules qs l0 H0) as (A & B & C & _). auto.
Qed.
Print Assumptions C23_port_map_stays_valid.

(** A request is granted exactly when the lock, the range checks, the sharing
    rule and the link's own rules allow it; a granted request moves that port
    only, a refused request changes nothing. *)
Theorem C23_set_port_request :
  forall (P : nat) (G : Z) rules locked ports l0 qs p n,
  initialize_ports P G rules locked ports = Some l0 ->
  let l := acts P G rules l0 qs in
  let r := set_port P G rules l p n in
  (snd r = true <-> grantable P G rules l p n) /\
  (snd r = true -> forall q, l_map (fst r) q = if Z.eqb q p then n else l_map l q) /\
  (snd r = true -> l_map l p <> n -> l_upd (fst r) = true) /\
  (snd r = false -> same_mapping P (fst r) l).
Proof.
  intros P G rules locked ports l0 qs p n Hi l r.
  destruct (initialize_inv P G rules _ _ _ Hi) as [H0 _].
  pose proof (acts_inv P G rules qs l0 H0) as Hl. fold l in Hl.
  assert (Hr : snd r = true <-> grantable P G rules l p n) by apply granted_iff.
  split; [exact Hr|]. split; [|split].
  - intros H. apply Hr in H. unfold r. now apply set_port_granted.
  - intros H Hne. unfold r. rewrite set_port_upd. apply Hr in H. apply granted_iff in H. rewrite H.
    cbn [andb]. destruct (Z.eqb_spec n (l_map l p)); [congruence|]. apply orb_true_r.
  - intros H. assert (Hg : ~ grantable P G rules l p n) by (rewrite <- Hr; congruence).
    pose proof (set_port_refused P G rules l p n Hg) as Hm.
    pose proof (set_port_inv P G rules l p n Hl) as (_ & [I1 I2] & U & _).
    destruct Hl as (_ & [J1 J2] & V & _).
    destruct (set_port_frame P G rules l p n) as (F1 & F2 & _).
    unfold same_mapping. fold r in Hm, I1, I2, U, F1, F2. rewrite Hm, F1, F2. repeat split; auto.
    + unfold r. rewrite set_port_upd. rewrite <- granted_iff in Hg.
      destruct (negb (l_lock l) && check_port_rules P G rules l p n); [congruence|].
      now rewrite orb_false_r.
    + congruence.
    + intros q Hq. rewrite I1, J1 by assumption. now rewrite Hm.
    + intros a b Ha Hb. rewrite I2, J2 by assumption. now rewrite Hm.
Qed.
Print Assumptions C23_set_port_request.

(** The same for the operator's user-port command: the control comes back
    READY or FAILED, and FAILED means the mapping is untouched. *)
Theorem C23_user_command :
  forall (P : nat) (G : Z) rules locked ports l0 qs,
  initialize_ports P G rules locked ports = Some l0 ->
  let l := acts P G rules l0 qs in
  let l' := process_user P G rules l in
  (l_ctl l' = PReady \/ l_ctl l' = PFailed) /\
  (l_ctl l <> PReady -> l_ctl l' = PReady ->
     let n := match l_ctl l with PDefault => l_def l (l_sel l) | PGround => G | _ => l_seln l end in
     is_port P (l_sel l) /\ is_node G n /\
     forall q, l_map l' q = if Z.eqb q (l_sel l) then n else l_map l q) /\
  (l_ctl l' = PFailed -> same_mapping P l' l).
Proof.
  intros P G rules locked ports l0 qs Hi l l'.
  destruct (initialize_inv P G rules _ _ _ Hi) as [H0 _].
  pose proof (acts_inv P G rules qs l0 H0) as Hl. fold l in Hl. unfold l'. clear l'.
  clearbody l. clear l0 qs Hi H0 locked ports.
  assert (Hsame : forall s n c, same_mapping P (with_user l s n c) l)
    by (intros; unfold same_mapping; cbn; repeat split; auto).
  assert (Hex : forall l1 s n, l1 = with_user l s n PExecute ->
     let r := set_port P G rules l1 s n in
     let l' := with_user (fst r) (-1)%Z (-1)%Z (if snd r then PReady else PFailed) in
     (l_ctl l' = PReady \/ l_ctl l' = PFailed) /\
     (l_ctl l' = PReady -> is_port P s /\ is_node G n /\
        forall q, l_map l' q = if Z.eqb q s then n else l_map l q) /\
     (l_ctl l' = PFailed -> same_mapping P l' l)).
  { intros l1 s n H1 r l'.
    assert (Hl1 : inv P G l1) by (subst l1; now apply (inv_ext P G l)).
    assert (Hr : snd r = true <-> grantable P G rules l1 s n) by apply granted_iff.
    unfold l'. destruct (snd r) eqn:Hs; cbn [with_user l_ctl l_map]; (split; [auto|]).
    - split; [|intros Hc; discriminate Hc]. intros _.
      assert (Hg : grantable P G rules l1 s n) by now apply Hr.
      pose proof (set_port_granted P G rules l1 s n Hg) as Hm. fold r in Hm.
      destruct Hg as (_ & Hp & Hn & _). subst l1. auto.
    - split; [intros Hc; discriminate Hc|]. intros _.
      assert (Hg : ~ grantable P G rules l1 s n) by (rewrite <- Hr; congruence).
      pose proof (set_port_refused P G rules l1 s n Hg) as Hm.
      pose proof (set_port_inv P G rules l1 s n Hl1) as (_ & [I1 I2] & U & _).
      destruct Hl as (_ & [J1 J2] & V & _).
      destruct (set_port_frame P G rules l1 s n) as (F1 & F2 & _).
      pose proof (set_port_upd P G rules l1 s n) as HU.
      rewrite <- granted_iff in Hg.
      destruct (negb (l_lock l1) && check_port_rules P G rules l1 s n); [congruence|].
      cbn [andb] in HU. rewrite orb_false_r in HU.
      fold r in Hm, I1, I2, U, F1, F2, HU. subst l1. cbn [with_user l_map l_def l_lock l_upd] in *.
      unfold same_mapping. cbn [with_user l_map l_def l_lock l_upd l_ptr l_amap l_ub].
      rewrite Hm, F1, F2, HU. repeat split; auto.
      + congruence.
      + intros q Hq. rewrite I1, J1 by assumption. now rewrite Hm.
      + intros a b Ha Hb. rewrite I2, J2 by assumption. now rewrite Hm. }
  unfold process_user.
  destruct (l_ctl l) eqn:Hc; cbn zeta.
  - rewrite Hc. split; [auto|]. split; [congruence|]. intros He; congruence.
  - rewrite Hc. destruct (Hex l (l_sel l) (l_seln l)) as (A & B & C).
    { destruct l; cbn in *; subst; reflexivity. }
    destruct (set_port P G rules l (l_sel l) (l_seln l)) as [l2 r]; cbn [fst snd] in *. auto.
  - rewrite Hc. split; [auto|]. split; [congruence|]. intros _. 
    unfold same_mapping; repeat split; auto.
  - destruct (valid_port P (l_sel l)) eqn:Hp; cbn [l_ctl with_user l_sel l_seln].
    + destruct (Hex _ (l_sel l) (l_def l (l_sel l)) eq_refl) as (A & B & C).
      destruct (set_port P G rules _ (l_sel l) (l_def l (l_sel l))) as [l2 r]; cbn [fst snd] in *. auto.
    + split; [auto|]. split; [intros _ Hx; discriminate Hx|]. intros _. apply Hsame.
  - cbn [l_ctl with_user l_sel l_seln].
    destruct (Hex _ (l_sel l) G eq_refl) as (A & B & C).
    destruct (set_port P G rules _ (l_sel l) G) as [l2 r]; cbn [fst snd] in *. auto.
Qed.
Print Assumptions C23_user_command.

(** Initialisation succeeds exactly for sound maps the link's rules accept
    (stated here for links without rules of their own) and then maps every port
    as asked. *)
Theorem C23_initialise :
  forall (P : nat) (G : Z) rules locked ports,
  (forall l, initialize_ports P G rules locked ports = Some l ->
     sound_map P G ports /\
     forall p, is_port P p -> l_map l p = ports p /\ l_def l p = ports p) /\
  ((forall l p n, rules l p n = true) -> (P > 0)%nat -> sound_map P G ports ->
     initialize_ports P G rules locked ports <> None).
Proof.
  intros P G rules locked ports. split.
  - intros l Hi. destruct (initialize_inv P G rules _ _ _ Hi) as (([S1 S2] & _) & A & B).
    split; [split|].
    + intros p Hp. rewrite <- A by assumption. auto.
    + intros p q Hp Hq Hne. rewrite <- !A by assumption. exact (S2 p q Hp Hq Hne).
    + auto.
  - intros Hr HP [S1 S2]. unfold initialize_ports.
    replace (0 <? P)%nat with true by (symmetry; apply Nat.ltb_lt; lia). cbn [andb].
    set (l0 := register_nodes P G rules ports (with_lock blank false)).
    assert (Hm : forall p, is_port P p -> l_map l0 p = ports p).
    { unfold l0, register_nodes.
      match goal with |- context [loop ?f _ _ ?s0] =>
        pose proof (loop_inv (fun m (l : plink) => l_lock l = false /\
          (forall p, (0 <= p < Z.of_nat m)%Z -> l_map l p = ports p) /\
          (forall p, ~ (0 <= p < Z.of_nat m)%Z -> l_map l p = (-1)%Z)) f P 0 s0) as HL end.
      destruct HL as (_ & A & _).
      - cbn. repeat split; auto. intros; lia.
      - intros i l Hi (I0 & I1 & I2).
        set (zi := Z.of_nat i). set (x := with_def l (setz (l_def l) zi (ports zi))).
        assert (Hzi : is_port P zi) by (unfold zi, is_port; lia).
        assert (Hg : grantable P G rules x zi (ports zi)).
        { repeat split; auto; try apply Hzi; try (now apply S1).
          intros q Hq Hne. change (l_map x q) with (l_map l q).
          destruct (Z_lt_dec q zi) as [Hlt|Hge].
          - unfold is_port, zi in *. rewrite I1 by lia. intros He. rewrite <- He. apply (S2 q (Z.of_nat i)); auto.
          - rewrite I2 by (unfold zi in *; lia). intros He. exfalso.
            specialize (S1 zi Hzi). unfold is_node in S1. lia. }
        destruct (set_port_frame P G rules x zi (ports zi)) as (_ & -> & _).
        pose proof (set_port_granted P G rules x zi (ports zi) Hg) as Hmm.
        change (l_map x) with (l_map l) in Hmm.
        repeat split; [exact I0 | |].
        + intros p Hp. rewrite Hmm. destruct (Z.eqb_spec p zi); [congruence|]. apply I1. unfold zi in *; lia.
        + intros p Hp. rewrite Hmm. destruct (Z.eqb_spec p zi); [unfold zi in *; lia|]. apply I2. lia.
      - exact A. }
    destruct (register_blank P G rules ports) as (_ & B & _). fold l0 in B.
    destruct (validate_nodes P (with_lock l0 locked)) eqn:Hv; [discriminate|].
    exfalso. revert Hv. apply not_false_iff_true. apply validate_nodes_iff.
    cbn [with_lock l_map l_ptr]. intros p Hp. rewrite B by assumption. split; [|discriminate].
    rewrite Hm by assumption. apply S1. exact Hp.
Qed.
Print Assumptions C23_initialise.

(** A failed initialisation has formed a pointer from index -1 before it throws. *)
Example C23_failed_init_forms_bad_pointer :
  l_ub (register_nodes 2 3 (fun _ _ _ => true) (fun _ => 0%Z) (with_lock blank false)) = true.
Proof. reflexivity. Qed.

(** ** C24 *)
Definition two_ports (a b : Z) : Z -> Z := fun p => if Z.eqb p 0 then a else b.
Definition free_rules : plink -> Z -> Z -> bool := fun _ _ _ => true.

Definition started : plink :=
  match initialize_ports 2 3 free_rules false (two_ports 0 1) with Some l => l | None => blank end.
Lemma started_ok : initialize_ports 2 3 free_rules false (two_ports 0 1) = Some started.
Proof.
  assert (H : initialize_ports 2 3 free_rules false (two_ports 0 1) <> None)
    by (vm_compute; discriminate).
  unfold started. destruct (initialize_ports 2 3 free_rules false (two_ports 0 1)); congruence.
Qed.

Theorem C24_restart_restores_map_refuted :
  exists P G ports l0 qs p,
    initialize_ports P G free_rules false ports = Some l0 /\ is_port P p /\
    let l := acts P G free_rules l0 qs in
    l_lock l = false /\ l_map (restart_ports P G free_rules l) p <> ports p.
Proof.
  exists 2%nat, 3%Z, (two_ports 0 1), started, [QSet 0 2; QSet 1 0], 0%Z. split; [exact started_ok|].
  split; [unfold is_port; lia|]. cbn zeta. split; [vm_compute; reflexivity|]. vm_compute. discriminate.
Qed.
Print Assumptions C24_restart_restores_map_refuted.

(** A locked map is not restored either. *)
Theorem C24_locked_map_refuted :
  exists P G ports l0 qs p,
    initialize_ports P G free_rules false ports = Some l0 /\ is_port P p /\
    l_map (restart_ports P G free_rules (acts P G free_rules l0 qs)) p <> ports p.
Proof.
  exists 2%nat, 3%Z, (two_ports 0 1), started, [QSet 0 2; QLock true], 0%Z. split; [exact started_ok|].
  split; [unfold is_port; lia|]. vm_compute. discriminate.
Qed.
Print Assumptions C24_locked_map_refuted.

(** What does hold: with the map unlocked and no rules of the link's own, every
    port is restored when no port currently sits on another port's default
    (non-ground) node; and the defaults themselves always survive. *)
Theorem C24_restart_restores_map_when_free :
  forall P G rules locked ports l0 qs,
  initialize_ports P G rules locked ports = Some l0 ->
  let l := acts P G rules l0 qs in
  (forall p, is_port P p -> l_def l p = ports p) /\
  ((forall l p n, rules l p n = true) -> l_lock l = false ->
   (forall p q, is_port P p -> is_port P q -> p <> q -> l_map l q = ports p -> ports p = G) ->
   forall p, is_port P p -> l_map (restart_ports P G rules l) p = ports p).
Proof.
  intros P G rules locked ports l0 qs Hi l.
  destruct (initialize_inv P G rules _ _ _ Hi) as (([S1 S2] & _) & A0 & A).
  assert (Hdef : forall p, is_port P p -> l_def l p = ports p).
  { unfold l. clear l. revert l0 Hi S1 S2 A0 A. intros l0 _ _ _ _ A. revert l0 A.
    induction qs as [|q qs IH]; intros l0 A; cbn; [exact A|]. apply IH.
    intros p Hp. rewrite <- (A p Hp). destruct q as [a n|a n c| |b| |]; cbn [act].
    - now destruct (set_port_frame P G rules l0 a n) as [-> _].
    - reflexivity.
    - unfold process_user.
      match goal with |- context [l_ctl ?x] =>
        match x with l0 => fail 1 | _ => set (l1 := x) end end.
      assert (H1 : l_def l1 = l_def l0).
      { unfold l1. destruct (l_ctl l0); auto. destruct (valid_port P (l_sel l0)); auto. }
      rewrite <- H1. clearbody l1. destruct (l_ctl l1); auto.
      pose proof (proj1 (set_port_frame P G rules l1 (l_sel l1) (l_seln l1))) as H2.
      destruct (set_port P G rules l1 (l_sel l1) (l_seln l1)) as [l2 r]; cbn in *. now rewrite H2.
    - reflexivity.
    - reflexivity.
    - unfold restart_ports.
      destruct (register_nodes_def P G rules (l_def l0) (with_user (with_map l0 (l_map l0) false) (-1)%Z (-1)%Z PReady)) as [-> _]; auto. }
  split; [exact Hdef|]. intros Hr Hlk Hfree.
  assert (Hs : sound_map P G ports).
  { split; [intros p Hp; rewrite <- A0 by assumption; auto|].
    intros p q Hp Hq Hne. rewrite <- !A0 by assumption. exact (S2 p q Hp Hq Hne). }
  clear S1 S2. destruct Hs as [S1 S2].
  unfold restart_ports, register_nodes.
  match goal with |- context [loop ?f _ _ ?s0] =>
    pose proof (loop_inv (fun m (l' : plink) => l_lock l' = false /\
      (forall p, (0 <= p < Z.of_nat m)%Z -> l_map l' p = ports p) /\
      (forall p, ~ (0 <= p < Z.of_nat m)%Z -> l_map l' p = l_map l p)) f P 0 s0) as HL end.
  destruct HL as (_ & B & _).
  - cbn. repeat split; auto. intros; lia.
  - intros i l' Hil (I0 & I1 & I2).
    set (zi := Z.of_nat i).
    assert (Hzi : is_port P zi) by (unfold zi, is_port; lia).
    rewrite (Hdef zi Hzi).
    set (x := with_def l' _).
    assert (Hg : grantable P G rules x zi (ports zi)).
    { repeat split; auto; try apply Hzi; try (now apply S1).
      intros q Hq Hne. change (l_map x q) with (l_map l' q).
      destruct (Z_lt_dec q zi) as [Hlt|Hge].
      - unfold is_port, zi in *. rewrite I1 by lia. intros He. rewrite <- He. apply (S2 q (Z.of_nat i)); auto.
      - rewrite I2 by (unfold zi in *; lia). intros He. apply (Hfree zi q); auto. }
    destruct (set_port_frame P G rules x zi (ports zi)) as (_ & -> & _).
    pose proof (set_port_granted P G rules x zi (ports zi) Hg) as Hmm.
    change (l_map x) with (l_map l') in Hmm.
    repeat split; [exact I0 | |].
    + intros p Hp. rewrite Hmm. destruct (Z.eqb_spec p zi); [congruence|]. apply I1. unfold zi in *; lia.
    + intros p Hp. rewrite Hmm. destruct (Z.eqb_spec p zi); [unfold zi in *; lia|]. apply I2. lia.
  - exact B.
Qed.
Print Assumptions C24_restart_restores_map_when_free.

(** ** C25 *)
Local Open Scope R_scope.

(** Total over nodes 0..G. *)
Definition total (n : nat) (f : Z -> R) : R := rsum n (fun i => f (Z.of_nat i)).

Lemma total_add n f (node : Z) x : (0 <= node < Z.of_nat n)%Z ->
  total n (setz f node (f node + x)) = total n f + x.
Proof.
  intros H. unfold total.
  rewrite (rsum_ext n _ (fun i => f (Z.of_nat i) + (if Nat.eqb i (Z.to_nat node) then x else 0))).
  - rewrite rsum_plus. f_equal.
    rewrite (rsum_single n (Z.to_nat node)); [now rewrite Nat.eqb_refl | lia |].
    intros i Hi Hne. destruct (Nat.eqb_spec i (Z.to_nat node)); [contradiction | reflexivity].
  - intros i Hi. unfold setz. destruct (Z.eqb_spec (Z.of_nat i) node) as [<-|Hne].
    + rewrite Nat2Z.id, Nat.eqb_refl. reflexivity.
    + destruct (Nat.eqb_spec i (Z.to_nat node)); [lia | lra].
Qed.

(** One transport: with [r] the flux from [from] to [to], the upstream node's
    outflow and the downstream node's inflow both grow by |r| and nothing else
    changes (from and to may be the same node). *)
Definition moved (from to : Z) (r : R) (s s' : fluxes (T := R)) : Prop :=
  let up := if Rlt_dec r 0 then to else from in
  let dn := if Rlt_dec r 0 then from else to in
  (forall k, f_out s' k = f_out s k + (if Z.eqb k up then Rabs r else 0)) /\
  (forall k, f_in s' k = f_in s k + (if Z.eqb k dn then Rabs r else 0)).

Theorem C25_transport_moves_flux :
  forall P nodes (flux : R) from to (s : fluxes),
  match transport_flux P nodes flux from to s with
  | Some s' => is_port P from /\ is_port P to /\ moved (nodes from) (nodes to) flux s s'
  | None => ~ (is_port P from /\ is_port P to)
  end.
Proof.
  intros P nodes flux from to s. unfold transport_flux.
  destruct (valid_port P to) eqn:H1; destruct (valid_port P from) eqn:H2; cbn [andb];
    try (rewrite <- !valid_port_iff; intros [A B]; congruence).
  apply valid_port_iff in H1. apply valid_port_iff in H2. split; [exact H2|]. split; [exact H1|].
  unfold moved. rnum.
  destruct (Rltb_spec 0 flux) as [Hf|Hf].
  - destruct (Rlt_dec flux 0); [lra|]. rewrite Rabs_right by lra.
    cbn [collect_influx collect_outflux f_in f_out].
    split; intros k; unfold setz; destruct (Z.eqb_spec k (nodes from)) as [E1|E1];
    destruct (Z.eqb_spec k (nodes to)) as [E2|E2]; rewrite <- ?E1, <- ?E2; rnum; lra.
  - destruct (Rltb_spec flux 0) as [Hg|Hg].
    + destruct (Rlt_dec flux 0); [|lra]. rewrite Rabs_left by lra.
      cbn [collect_influx collect_outflux f_in f_out].
      split; intros k; unfold setz; destruct (Z.eqb_spec k (nodes from)) as [E1|E1];
      destruct (Z.eqb_spec k (nodes to)) as [E2|E2]; rewrite <- ?E1, <- ?E2; rnum; lra.
    + assert (flux = 0) by lra. subst. destruct (Rlt_dec 0 0); [lra|]. rewrite Rabs_R0.
      split; intros k; destruct (Z.eqb k _); lra.
Qed.
Print Assumptions C25_transport_moves_flux.

(** Any list of transports by any links on a network of [n] nodes. *)
Theorem C25_transport_conserves :
  forall (n : nat) cs (s s' : fluxes),
  (forall P nodes flux from to, In (P, nodes, flux, from, to) cs ->
     forall p, is_port P p -> (0 <= nodes p < Z.of_nat n)%Z) ->
  transport_all cs s = Some s' ->
  total n (f_in s') - total n (f_out s') = total n (f_in s) - total n (f_out s) /\
  (forall k, f_in s k <= f_in s' k) /\ (forall k, f_out s k <= f_out s' k).
Proof.
  intros n cs. induction cs as [|c cs IH]; intros s s' Hok Hrun.
  - cbn in Hrun. assert (s = s') by congruence. subst. repeat split; intros; lra.
  - destruct c as [[[[P nodes] flux] from] to]. unfold transport_all in Hrun. cbn [fold_left] in Hrun.
    pose proof (C25_transport_moves_flux P nodes flux from to s) as Hm.
    destruct (transport_flux P nodes flux from to s) as [s1|].
    + destruct (IH s1 s') as (A & B & C).
      * intros. eapply Hok; [right; eassumption | assumption].
      * exact Hrun.
      * destruct Hm as (Hf & Ht & Ho & Hi').
        assert (Ex : forall node x g h, (0 <= node < Z.of_nat n)%Z ->
            (forall k, g k = h k + (if Z.eqb k node then x else 0)) -> total n g = total n h + x).
        { intros node x g h Hn Hgh. rewrite <- (total_add n h node x Hn). unfold total.
          apply rsum_ext. intros i Hi. rewrite Hgh. unfold setz.
          destruct (Z.eqb_spec (Z.of_nat i) node) as [->|]; lra. }
        pose proof (Hok P nodes flux from to (or_introl eq_refl) from Hf) as Nf.
        pose proof (Hok P nodes flux from to (or_introl eq_refl) to Ht) as Nt.
        pose proof (Rabs_pos flux) as Hpos.
        split; [|split].
        -- rewrite A.
           rewrite (Ex _ _ (f_in s1) (f_in s)
                      (match Rlt_dec flux 0 as d return (0 <= (if d then nodes from else nodes to) < Z.of_nat n)%Z
                       with left _ => Nf | right _ => Nt end) Hi').
           rewrite (Ex _ _ (f_out s1) (f_out s)
                      (match Rlt_dec flux 0 as d return (0 <= (if d then nodes to else nodes from) < Z.of_nat n)%Z
                       with left _ => Nt | right _ => Nf end) Ho).
           lra.
        -- intros k. specialize (B k). specialize (Hi' k). revert Hi'. destruct (Z.eqb k _); lra.
        -- intros k. specialize (C k). specialize (Ho k). revert Ho. destruct (Z.eqb k _); lra.
    + exfalso. clear -Hrun. induction cs as [|c cs IH]; cbn in Hrun; [discriminate Hrun | auto].
Qed.
Print Assumptions C25_transport_conserves.

Example C25_example :
  exists s', transport_all [(2%nat, two_ports 0 1, 3, 0%Z, 1%Z); (2%nat, two_ports 1 2, -5, 0%Z, 1%Z)]
     {| f_in := fun _ => 0; f_out := fun _ => 0 |} = Some s' /\
  f_in s' 1%Z = 8 /\ f_out s' 0%Z = 3 /\ f_out s' 2%Z = 5.
Proof.
  pose proof (C25_transport_moves_flux 2 (two_ports 0 1) 3 0 1
     {| f_in := fun _ => 0; f_out := fun _ => 0 |}) as H1.
  unfold transport_all; cbn [fold_left].
  destruct (transport_flux 2 (two_ports 0 1) 3 0 1 _) as [s1|]; [|exfalso; apply H1; unfold is_port; lia].
  destruct H1 as (_ & _ & O1 & I1).
  pose proof (C25_transport_moves_flux 2 (two_ports 1 2) (-5) 0 1 s1) as H2.
  destruct (transport_flux 2 (two_ports 1 2) (-5) 0 1 s1) as [s2|]; [|exfalso; apply H2; unfold is_port; lia].
  destruct H2 as (_ & _ & O2 & I2).
  exists s2. split; [reflexivity|].
  destruct (Rlt_dec (-5) 0) as [_|]; [|lra]. destruct (Rlt_dec 3 0) as [|_]; [lra|].
  rewrite I2, !O2, I1, !O1. cbn. rewrite (Rabs_right 3), (Rabs_left (-5)) by lra. repeat split; lra.
Qed.

(** Non-vacuity of C23/C24: a history of granted, refused and user requests. *)
Example C23_example :
  exists l0, initialize_ports 2 3 free_rules false (two_ports 0 1) = Some l0 /\
  let l := acts 2 3 free_rules l0
     [QSet 0 1; QSet 0 2; QUser 1 0 PDefault; QStep; QUser 0 0 PGround; QStep; QSet 5 0; QSet 1 9] in
  l_map l 0%Z = 3%Z /\ l_map l 1%Z = 1%Z /\ l_map (restart_ports 2 3 free_rules l) 0%Z = 0%Z.
Proof. exists started. split; [exact started_ok|]. vm_compute. auto. Qed.
