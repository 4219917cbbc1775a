(** C107, C108: the fluid flow orchestrator. *)
From Coq Require Import List Arith Bool Lia.
From Verif Require Import Orchestrator Spec_Orchestrator.
Import ListNotations.

Lemma setb_same {A} (m : nat -> A) i v : setb m i v i = v.
Proof. unfold setb. now rewrite Nat.eqb_refl. Qed.
Lemma setb_other {A} (m : nat -> A) i v a : a <> i -> setb m i v a = m a.
Proof. unfold setb. intros. destruct (Nat.eqb_spec a i); congruence. Qed.

Lemma takes_from_spec o l n : takes_from o l n <-> exists d, In (n, d) (o_ports o l) /\ takes d = true.
Proof.
  unfold takes_from. split.
  - intros [H|H]; eexists; split; try exact H; reflexivity.
  - intros ([| | |] & H & E); try discriminate; auto.
Qed.
Lemma gives_to_spec o l n : gives_to o l n <-> exists d, In (n, d) (o_ports o l) /\ gives d = true.
Proof.
  unfold gives_to. split.
  - intros [H|H]; eexists; split; try exact H; reflexivity.
  - intros ([| | |] & H & E); try discriminate; auto.
Qed.
Lemma sources_ready_spec o s l : sources_ready o s l = true <-> forall n, takes_from o l n -> t_node s n <> Overflowing.
Proof.
  unfold sources_ready. rewrite forallb_forall. split.
  - intros H n Hn E. apply takes_from_spec in Hn. destruct Hn as (d & Hd & Et). specialize (H _ Hd). cbn in H.
    rewrite Et, E in H. discriminate.
  - intros H [n d] Hd. cbn. destruct (takes d) eqn:Et; [|reflexivity]. cbn.
    destruct (t_node s n) eqn:E; try reflexivity. exfalso. apply (H n); [|exact E]. apply takes_from_spec. eauto.
Qed.
Lemma inputs_complete_spec o s n : inputs_complete o s n = true <->
  forall l, l < o_links o -> gives_to o l n -> t_link s l = true.
Proof.
  unfold inputs_complete. rewrite forallb_forall. split.
  - intros H l Hl Hg. apply gives_to_spec in Hg. destruct Hg as (d & Hd & Eg).
    assert (Hi : In l (seq 0 (o_links o))) by (apply in_seq; lia). specialize (H _ Hi). rewrite forallb_forall in H.
    specialize (H _ Hd). cbn in H. rewrite Nat.eqb_refl, Eg in H. destruct (t_link s l); [reflexivity|discriminate].
  - intros H l Hl. apply in_seq in Hl. apply forallb_forall. intros [m d] Hd. cbn.
    destruct (Nat.eqb_spec n m) as [<-|]; [|reflexivity]. destruct (gives d) eqn:Eg; [|now rewrite !andb_false_r].
    rewrite H; [reflexivity|lia|]. apply gives_to_spec. eauto.
Qed.

(** A link that takes from no overflowing node. *)
Definition calm (o : net) (l : nat) : Prop := forall n, takes_from o l n -> ~ overflows o n.

(** ** Invariant of the calls *)

(** The part of it about the order; [tr] is latest first. *)
Definition well_ordered (o : net) (tr : list event) : Prop :=
  forall u e v, tr = u ++ e :: v ->
    match e with
    | Compute l => forall x, In x v -> exists k, x = Compute k
    | Transport l => forall n, takes_from o l n -> overflows o n -> In (Integrate n) v
    | Early l => True
    | Integrate n => forall l, l < o_links o -> gives_to o l n \/ calm o l -> exists x, In x v /\ is_transport l x
    end.

Definition count (P : event -> bool) (tr : list event) : nat := length (filter P tr).
Definition is_t (l : nat) (e : event) : bool :=
  match e with Transport k | Early k => Nat.eqb k l | _ => false end.
Definition is_i (n : nat) (e : event) : bool := match e with Integrate k => Nat.eqb k n | _ => false end.
Definition is_c (l : nat) (e : event) : bool := match e with Compute k => Nat.eqb k l | _ => false end.

Record inv (o : net) (s : st) : Prop := {
  v_ord : well_ordered o (t_log s);
  v_t : forall l, count (is_t l) (t_log s) = if t_link s l then 1 else 0;
  v_tl : forall l, t_link s l = true -> l < o_links o;
  v_i : forall n, n <> o_nodes o -> count (is_i n) (t_log s) = if is_complete (t_node s n) then 1 else 0;
  v_i0 : count (is_i (o_nodes o)) (t_log s) = 0 /\ t_node s (o_nodes o) = Complete;
  v_in : forall n, In (Integrate n) (t_log s) -> n < o_nodes o;
  v_c : forall l, count (is_c l) (t_log s) = if l <? o_links o then 1 else 0;
  v_o : forall n, overflows o n -> t_node s n = Complete \/ t_node s n = Overflowing;
  v_no : forall n, ~ overflows o n -> t_node s n <> Overflowing
}.

Lemma count_cons P e tr : count P (e :: tr) = (if P e then 1 else 0) + count P tr.
Proof. unfold count. cbn. destruct (P e); reflexivity. Qed.
Lemma count_in P tr : (exists e, In e tr /\ P e = true) <-> 0 < count P tr.
Proof.
  unfold count. split.
  - intros (e & H1 & H2). destruct (filter P tr) eqn:E; [|cbn; lia]. exfalso.
    assert (In e (filter P tr)) by (apply filter_In; auto). rewrite E in H. exact H.
  - intros H. destruct (filter P tr) as [|e r] eqn:E; [cbn in H; lia|].
    assert (In e (filter P tr)) by (rewrite E; left; reflexivity). apply filter_In in H0. eauto.
Qed.
Lemma is_t_spec l e : is_t l e = true <-> is_transport l e.
Proof.
  unfold is_transport. destruct e; cbn; rewrite ?Nat.eqb_eq; split; intros H; try discriminate; try (now left; f_equal); try (now right; f_equal);
    destruct H; congruence.
Qed.
Lemma is_i_spec n e : is_i n e = true <-> e = Integrate n.
Proof. destruct e; cbn; rewrite ?Nat.eqb_eq; split; intros H; try discriminate; congruence. Qed.

Lemma ordered_cons o e tr : well_ordered o tr ->
  match e with
  | Compute l => forall x, In x tr -> exists k, x = Compute k
  | Transport l => forall n, takes_from o l n -> overflows o n -> In (Integrate n) tr
  | Early l => True
  | Integrate n => forall l, l < o_links o -> gives_to o l n \/ calm o l -> exists x, In x tr /\ is_transport l x
  end -> well_ordered o (e :: tr).
Proof.
  intros W H u x v E. destruct u as [|y u]; cbn in E; inversion E; subst.
  - exact H.
  - exact (W u x v eq_refl).
Qed.

Lemma integrated o s n : inv o s -> n <> o_nodes o -> t_node s n = Complete -> In (Integrate n) (t_log s).
Proof.
  intros I Hn E. pose proof (v_i o s I n Hn) as C. rewrite E in C. cbn in C.
  destruct (proj2 (count_in (is_i n) (t_log s))) as (e & H1 & H2); [lia|]. apply is_i_spec in H2. now subst e.
Qed.
Lemma transported o s l : inv o s -> t_link s l = true -> exists x, In x (t_log s) /\ is_transport l x.
Proof.
  intros I E. pose proof (v_t o s I l) as C. rewrite E in C.
  destruct (proj2 (count_in (is_t l) (t_log s))) as (e & H1 & H2); [lia|]. apply is_t_spec in H2. eauto.
Qed.

Lemma inv_link o s l e : inv o s -> t_link s l = false -> l < o_links o ->
  (e = Early l \/ e = Transport l /\ sources_ready o s l = true) -> inv o (done_link s l e).
Proof.
  intros I El Hl He. assert (Te : is_t l e = true) by (destruct He as [->|[-> _]]; cbn; apply Nat.eqb_refl).
  assert (Te2 : forall k, k <> l -> is_t k e = false).
  { intros k Hk. destruct He as [->|[-> _]]; cbn; apply Nat.eqb_neq; auto. }
  assert (Ie : forall n, is_i n e = false) by (intros; destruct He as [->|[-> _]]; reflexivity).
  assert (Ce : forall n, is_c n e = false) by (intros; destruct He as [->|[-> _]]; reflexivity).
  constructor; cbn [done_link t_log t_link t_node].
  - apply ordered_cons; [apply I|]. destruct He as [->|[-> R]]; [exact Logic.I|].
    intros n Hn Ho. rewrite sources_ready_spec in R. specialize (R n Hn).
    destruct (v_o o s I n Ho) as [E|E]; [|contradiction]. apply (integrated o s n I); [apply Ho|exact E].
  - intros k. rewrite count_cons, (v_t o s I k). destruct (Nat.eq_dec k l) as [->|Hk].
    + rewrite Te, setb_same, El. reflexivity.
    + rewrite (Te2 k Hk), setb_other by exact Hk. reflexivity.
  - intros k. destruct (Nat.eq_dec k l) as [->|Hk]; [auto|]. rewrite setb_other by exact Hk. apply I.
  - intros n Hn. rewrite count_cons, Ie. apply I, Hn.
  - rewrite count_cons, Ie. apply I.
  - intros n [H|H]; [destruct He as [->|[-> _]]; discriminate|]. now apply I.
  - intros k. rewrite count_cons, Ce. apply I.
  - apply I.
  - apply I.
Qed.
Definition calm_done (o : net) (s : st) : Prop := forall l, l < o_links o -> calm o l -> t_link s l = true.
Lemma inv_node o s n : inv o s -> calm_done o s -> t_node s n <> Complete -> n < o_nodes o -> inputs_complete o s n = true -> inv o (done_node s n).
Proof.
  intros I Cd En Hn R. constructor; cbn [done_node t_log t_link t_node].
  - apply ordered_cons; [apply I|]. intros l Hl Hg. rewrite inputs_complete_spec in R.
    apply (transported o s l I). destruct Hg; [now apply R|now apply Cd].
  - intros k. rewrite count_cons. apply I.
  - apply I.
  - intros m Hm. rewrite count_cons, (v_i o s I m Hm). cbn. destruct (Nat.eqb_spec n m) as [<-|Hk].
    + rewrite setb_same. destruct (t_node s n); [reflexivity|reflexivity|congruence].
    + rewrite setb_other by auto. reflexivity.
  - rewrite count_cons. cbn. destruct (Nat.eqb_spec n (o_nodes o)); [lia|]. rewrite setb_other by lia. apply I.
  - intros m [H|H]; [congruence|now apply I].
  - intros k. rewrite count_cons. apply I.
  - intros m Hm. destruct (Nat.eq_dec m n) as [->|Hk]; [rewrite setb_same; auto|]. rewrite setb_other by exact Hk. now apply I.
  - intros m Hm. destruct (Nat.eq_dec m n) as [->|Hk]; [rewrite setb_same; discriminate|]. rewrite setb_other by exact Hk. now apply I.
Qed.

Lemma fold_inv {A} (P : st -> Prop) (f : st -> A -> st) l : forall s, P s -> (forall s x, In x l -> P s -> P (f s x)) -> P (fold_left f l s).
Proof.
  induction l as [|x l IH]; intros s H Hf; cbn; [exact H|]. apply IH; [apply Hf; [left; reflexivity|exact H]|].
  intros t y Hy. apply Hf. now right.
Qed.

Lemma inv_link_step o s l : inv o s -> l < o_links o -> inv o (link_step o s l).
Proof.
  intros I Hl. unfold link_step. destruct (t_link s l) eqn:E; cbn [negb andb]; [exact I|].
  destruct (sources_ready o s l) eqn:R; [|exact I]. apply inv_link; auto.
Qed.
Lemma inv_node_step o s n : inv o s -> calm_done o s -> n < o_nodes o -> inv o (node_step o s n).
Proof.
  intros I Cd Hn. unfold node_step. destruct (is_complete (t_node s n)) eqn:E; cbn [negb andb]; [exact I|].
  destruct (inputs_complete o s n) eqn:R; [|exact I]. apply inv_node; auto. intros K. rewrite K in E. discriminate.
Qed.
Lemma inv_link_pass o s : inv o s -> inv o (link_pass o s).
Proof. intros I. unfold link_pass. apply (fold_inv (inv o)); [exact I|]. intros t l Hl It. apply in_seq in Hl. apply inv_link_step; [exact It|lia]. Qed.
Lemma inv_node_pass o s : inv o s -> calm_done o s -> inv o (node_pass o s).
Proof.
  intros I Cd. unfold node_pass. apply (fold_inv (fun t => inv o t /\ calm_done o t)); [auto|].
  intros t l Hl (It & Ct). apply in_seq in Hl. split; [apply inv_node_step; [exact It|exact Ct|lia]|].
  intros k Hk Hc. unfold node_step. destruct (_ && _); now apply Ct.
Qed.

(** After the node pass every node whose inputs are complete is. *)
Lemma node_pass_links o s : t_link (node_pass o s) = t_link s /\ t_num (node_pass o s) = t_num s.
Proof.
  unfold node_pass. apply (fold_inv (fun t => t_link t = t_link s /\ t_num t = t_num s)); [auto|].
  intros t n _ H. unfold node_step. destruct (_ && _); exact H.
Qed.
Lemma node_step_mono o s n m : t_node s m = Complete -> t_node (node_step o s n) m = Complete.
Proof.
  intros H. unfold node_step. destruct (_ && _); [|exact H]. cbn. destruct (Nat.eq_dec m n) as [->|Hn].
  - apply setb_same. - now rewrite setb_other.
Qed.
Lemma node_pass_complete o s n : n < o_nodes o -> inputs_complete o s n = true -> t_node (node_pass o s) n = Complete.
Proof.
  intros Hn R. unfold node_pass. assert (Hi : In n (seq 0 (o_nodes o))) by (apply in_seq; lia). clear Hn.
  assert (G : forall l t, t_link t = t_link s -> In n l \/ t_node t n = Complete -> t_node (fold_left (node_step o) l t) n = Complete).
  { induction l as [|x l IH]; intros t Et H; cbn.
    - destruct H as [[]|H]; exact H.
    - apply IH.
      + unfold node_step. destruct (_ && _); exact Et.
      + destruct H as [[->|H]|H]; [|auto|right; now apply node_step_mono].
        right. unfold node_step. assert (R' : inputs_complete o t n = true).
        { rewrite inputs_complete_spec in *. now rewrite Et. }
        rewrite R', andb_true_r. destruct (t_node t n) eqn:E; cbn; try apply setb_same. exact E. }
  apply G; [reflexivity|left; exact Hi].
Qed.

Lemma inv_begin o : inv o (begin o).
Proof.
  assert (Hc : forall x, In x (t_log (begin o)) -> exists k, x = Compute k /\ k < o_links o).
  { intros x Hx. cbn in Hx. rewrite <- in_rev in Hx. apply in_map_iff in Hx. destruct Hx as (k & <- & Hk). apply in_seq in Hk. exists k. split; [reflexivity|lia]. }
  assert (Z0 : forall P, (forall k, P (Compute k) = false) -> count P (t_log (begin o)) = 0).
  { intros P HP. destruct (Nat.eq_dec (count P (t_log (begin o))) 0) as [|Hne]; [assumption|].
    destruct (proj2 (count_in P (t_log (begin o)))) as (e & H1 & H2); [lia|]. apply Hc in H1. destruct H1 as (k & -> & _).
    rewrite HP in H2. discriminate. }
  constructor.
  - intros u e v E. assert (He : In e (t_log (begin o))) by (rewrite E; apply in_elt). destruct (Hc e He) as (k & -> & _).
    intros x Hx. destruct (Hc x) as (j & -> & _); [rewrite E; apply in_or_app; right; right; exact Hx|]. eauto.
  - intros l. apply Z0. reflexivity.
  - discriminate.
  - intros n Hn. rewrite Z0 by reflexivity. cbn. destruct (Nat.eqb_spec n (o_nodes o)); [contradiction|]. now destruct (o_over o n).
  - split; [apply Z0; reflexivity|]. cbn. now rewrite Nat.eqb_refl.
  - intros n Hn. apply Hc in Hn. destruct Hn as (k & E & _). discriminate.
  - intros l. cbn. unfold count. generalize (o_links o). intros N.
    assert (G : forall N, length (filter (is_c l) (rev (map Compute (seq 0 N)))) = if l <? N then 1 else 0).
    { clear. induction N as [|N IH]; [reflexivity|].
      rewrite seq_S, map_app, rev_app_distr. cbn [map rev app filter is_c Nat.add].
      destruct (Nat.eqb_spec N l) as [->|Hn]; cbn [length]; rewrite IH.
      - replace (l <? l) with false by (symmetry; apply Nat.ltb_ge; lia). replace (l <? S l) with true by (symmetry; apply Nat.ltb_lt; lia). reflexivity.
      - destruct (Nat.ltb_spec l N), (Nat.ltb_spec l (S N)); try lia; reflexivity. }
    apply G.
  - intros n (Hn & Ho). cbn. destruct (Nat.eqb_spec n (o_nodes o)); [contradiction|]. rewrite Ho. auto.
  - intros n Ho. cbn. destruct (Nat.eqb_spec n (o_nodes o)); [discriminate|].
    destruct (o_over o n) eqn:E; [|discriminate]. exfalso. apply Ho. split; assumption.
Qed.

(** ** One turn of the loop *)

Lemma link_step_mono o s l k : t_link s k = true -> t_link (link_step o s l) k = true.
Proof.
  intros H. unfold link_step. destruct (_ && _); [|exact H]. cbn. destruct (Nat.eq_dec k l) as [->|Hn].
  - apply setb_same. - now rewrite setb_other.
Qed.
Lemma link_pass_num o s : t_num (link_pass o s) = t_num s /\ t_node (link_pass o s) = t_node s.
Proof.
  unfold link_pass. apply (fold_inv (fun t => t_num t = t_num s /\ t_node t = t_node s)); [auto|].
  intros t n _ H. unfold link_step. destruct (_ && _); exact H.
Qed.
Lemma link_pass_mono o s k : t_link s k = true -> t_link (link_pass o s) k = true.
Proof.
  intros H. unfold link_pass. apply (fold_inv (fun t => t_link t k = true)); [exact H|]. intros. now apply link_step_mono.
Qed.
Lemma link_pass_ready o s l : l < o_links o -> sources_ready o s l = true -> t_link (link_pass o s) l = true.
Proof.
  intros Hl R. unfold link_pass. assert (Hi : In l (seq 0 (o_links o))) by (apply in_seq; lia). clear Hl.
  assert (G : forall q t, t_node t = t_node s -> In l q \/ t_link t l = true -> t_link (fold_left (link_step o) q t) l = true).
  { induction q as [|x q IH]; intros t Et H; cbn.
    - destruct H as [[]|H]; exact H.
    - apply IH.
      + unfold link_step. destruct (_ && _); exact Et.
      + destruct H as [[->|H]|H]; [|auto|right; now apply link_step_mono].
        right. unfold link_step. assert (R' : sources_ready o t l = true).
        { rewrite sources_ready_spec in *. now rewrite Et. }
        rewrite R', andb_true_r. destruct (t_link t l) eqn:E; cbn; [exact E|apply setb_same]. }
  apply G; [reflexivity|left; exact Hi].
Qed.
Lemma link_pass_calm o s : inv o s -> calm_done o (link_pass o s).
Proof.
  intros I l Hl Hc. apply link_pass_ready; [exact Hl|]. apply sources_ready_spec. intros n Hn. apply (v_no o s I). now apply Hc.
Qed.

Lemma filter_len_le {A} (f g : A -> bool) l : (forall x, f x = true -> g x = true) -> length (filter f l) <= length (filter g l).
Proof.
  intros H. induction l as [|x l IH]; cbn; [lia|]. destruct (f x) eqn:E; [rewrite (H x E); cbn; lia|]. destruct (g x); cbn; lia.
Qed.
Lemma count_link_pass o s : count_incomplete o (link_pass o s) <= count_incomplete o s.
Proof.
  unfold count_incomplete. apply filter_len_le. intros l H. cbv beta in *. destruct (t_link s l) eqn:E; [|reflexivity].
  rewrite (link_pass_mono o s l E) in H. discriminate.
Qed.
Lemma count_zero o s : count_incomplete o s = 0 <-> forall l, l < o_links o -> t_link s l = true.
Proof.
  unfold count_incomplete. split.
  - intros H l Hl. destruct (t_link s l) eqn:E; [reflexivity|]. exfalso.
    assert (Hf : In l (filter (fun l => negb (t_link s l)) (seq 0 (o_links o)))) by (apply filter_In; rewrite in_seq, E; split; [lia|reflexivity]).
    destruct (filter _ _); [destruct Hf|discriminate].
  - intros H. destruct (filter (fun l => negb (t_link s l)) (seq 0 (o_links o))) as [|l r] eqn:E; [reflexivity|].
    assert (Hf : In l (filter (fun l => negb (t_link s l)) (seq 0 (o_links o)))) by (rewrite E; left; reflexivity).
    apply filter_In in Hf. destruct Hf as (H1 & H2). apply in_seq in H1. rewrite H in H2 by lia. discriminate.
Qed.
Lemma filter_ext' {A} (f g : A -> bool) l : (forall x, In x l -> f x = g x) -> filter f l = filter g l.
Proof. intros H. induction l as [|x l IH]; cbn; [reflexivity|]. rewrite (H x (or_introl eq_refl)), IH; [reflexivity|]. intros; apply H; now right. Qed.
Lemma count_done o s l e : l < o_links o -> t_link s l = false -> S (count_incomplete o (done_link s l e)) = count_incomplete o s.
Proof.
  intros Hl El. unfold count_incomplete. cbn [done_link t_link].
  assert (E : seq 0 (o_links o) = seq 0 l ++ l :: seq (S l) (o_links o - S l)).
  { replace (o_links o) with (l + S (o_links o - S l)) at 1 by lia. rewrite seq_app. reflexivity. }
  rewrite E, !filter_app, !app_length. cbn [filter]. rewrite setb_same, El. cbn [negb length].
  rewrite (filter_ext' (fun k => negb (setb (t_link s) l true k)) (fun k => negb (t_link s k)) (seq 0 l)).
  2:{ intros x Hx. apply in_seq in Hx. rewrite setb_other by lia. reflexivity. }
  rewrite (filter_ext' (fun k => negb (setb (t_link s) l true k)) (fun k => negb (t_link s k)) (seq (S l) (o_links o - S l))).
  2:{ intros x Hx. apply in_seq in Hx. rewrite setb_other by lia. reflexivity. }
  lia.
Qed.
Lemma count_node_pass o s : count_incomplete o (node_pass o s) = count_incomplete o s.
Proof. unfold count_incomplete. now rewrite (proj1 (node_pass_links o s)). Qed.
Lemma all_complete o s : count_incomplete o s = 0 -> all_nodes_complete o (node_pass o s) = true.
Proof.
  intros H. unfold all_nodes_complete. apply forallb_forall. intros n Hn. apply in_seq in Hn.
  rewrite node_pass_complete; [reflexivity|lia|]. apply inputs_complete_spec. intros l Hl _. now apply (proj1 (count_zero o s) H).
Qed.
Lemma first_spec o s : match first_incomplete o s with
  | Some l => l < o_links o /\ t_link s l = false /\ forall k, k < l -> t_link s k = true
  | None => count_incomplete o s = 0
  end.
Proof.
  unfold first_incomplete.
  assert (G : forall a n, match find (fun l => negb (t_link s l)) (seq a n) with
     | Some l => a <= l < a + n /\ t_link s l = false /\ forall k, a <= k < l -> t_link s k = true
     | None => forall l, a <= l < a + n -> t_link s l = true end).
  { intros a n. revert a. induction n as [|n IH]; intros a; cbn [seq find]; [intros; lia|].
    destruct (t_link s a) eqn:E; cbn [negb].
    - specialize (IH (S a)). destruct (find _ _) as [l|].
      + destruct IH as (H1 & H2 & H3). split; [lia|]. split; [exact H2|]. intros k Hk.
        destruct (Nat.eq_dec k a) as [->|]; [exact E|]. apply H3. lia.
      + intros l Hl. destruct (Nat.eq_dec l a) as [->|]; [exact E|]. apply IH. lia.
    - split; [lia|]. split; [exact E|]. intros; lia. }
  specialize (G 0 (o_links o)). destruct (find _ _) as [l|].
  - destruct G as (H1 & H2 & H3). split; [lia|]. split; [exact H2|]. intros; apply H3; lia.
  - apply count_zero. intros l Hl. apply G. lia.
Qed.

Definition measure (o : net) (s : st) : nat := 2 * count_incomplete o s + (if t_num s <=? count_incomplete o s then 0 else 1).
Definition body (o : net) (s : st) : st := node_pass o (link_pass o s).
Lemma inv_body o s : inv o s -> inv o (body o s).
Proof. intros I. apply inv_node_pass; [now apply inv_link_pass|now apply link_pass_calm]. Qed.
Lemma inv_num o s k : inv o s -> inv o (mkst (t_link s) (t_node s) k (t_log s)).
Proof. intros [? ? ? ? ? ? ? ? ?]. constructor; assumption. Qed.

(** One turn: done, or on with less to do; never the exception. *)
Inductive turn (o : net) (s : st) : answer -> Prop :=
| u_done : count_incomplete o (body o s) = 0 -> all_nodes_complete o (body o s) = true ->
    turn o s (All (mkst (t_link (body o s)) (t_node (body o s)) 0 (t_log (body o s))))
| u_force l : l < o_links o -> t_link (body o s) l = false -> (forall k, k < l -> t_link (body o s) k = true) ->
    turn o s (Again (mkst (setb (t_link (body o s)) l true) (t_node (body o s)) (count_incomplete o (body o s)) (Early l :: t_log (body o s))))
| u_more : 0 < count_incomplete o (body o s) ->
    turn o s (Again (mkst (t_link (body o s)) (t_node (body o s)) (count_incomplete o (body o s)) (t_log (body o s)))).

Lemma one_turn o s : inv o s -> turn o s (check o (body o s)) /\
  match check o (body o s) with Again s' => measure o s' < measure o s | _ => True end.
Proof.
  intros I. unfold check. cbv zeta.
  assert (Ck : count_incomplete o (body o s) = count_incomplete o (link_pass o s)) by apply count_node_pass.
  assert (Cl : count_incomplete o (body o s) <= count_incomplete o s) by (rewrite Ck; apply count_link_pass).
  assert (Nm : t_num (body o s) = t_num s).
  { unfold body. rewrite (proj2 (node_pass_links o _)). apply link_pass_num. }
  destruct (Nat.eqb_spec (count_incomplete o (body o s)) 0) as [E|E].
  - assert (A : all_nodes_complete o (body o s) = true) by (apply all_complete; congruence).
    rewrite A. cbn [andb]. split; [|exact Logic.I]. now constructor.
  - cbn [andb]. pose proof (first_spec o (body o s)) as F.
    destruct (Nat.leb_spec (t_num (body o s)) (count_incomplete o (body o s))) as [Hle|Hgt].
    + destruct (first_incomplete o (body o s)) as [l|]; [|congruence]. destruct F as (F1 & F2 & F3).
      split; [now apply u_force|].
      pose proof (count_done o (body o s) l (Early l) F1 F2) as Cd. unfold measure. cbn [done_link t_link t_node t_log t_num].
      change (count_incomplete o (mkst (setb (t_link (body o s)) l true) (t_node (body o s)) (count_incomplete o (body o s)) (Early l :: t_log (body o s))))
        with (count_incomplete o (done_link (body o s) l (Early l))).
      rewrite Nm in Hle. destruct (Nat.leb_spec (count_incomplete o (body o s)) (count_incomplete o (done_link (body o s) l (Early l)))); [lia|].
      destruct (Nat.leb_spec (t_num s) (count_incomplete o s)); lia.
    + split; [apply u_more; lia|]. unfold measure. cbn [t_num].
      change (count_incomplete o (mkst (t_link (body o s)) (t_node (body o s)) (count_incomplete o (body o s)) (t_log (body o s))))
        with (count_incomplete o (body o s)).
      rewrite Nat.leb_refl. rewrite Nm in Hgt. destruct (Nat.leb_spec (t_num s) (count_incomplete o s)); lia.
Qed.

Lemma turn_inv o s : inv o s -> forall a, turn o s a -> match a with All s' | Again s' => inv o s' | Thrown _ => True end.
Proof.
  intros I a T. pose proof (inv_body o s I) as B. inversion T; subst.
  - now apply inv_num.
  - apply (inv_num o (done_link (body o s) l (Early l))). apply inv_link; auto.
  - now apply inv_num.
Qed.

(** The loop ends; [P] is anything each turn preserves. *)
Lemma loop_ends o (P : st -> Prop) :
  (forall s a, inv o s -> P s -> turn o s a -> match a with All s' | Again s' => P s' | Thrown _ => True end) ->
  forall fuel s, inv o s -> P s -> measure o s < fuel ->
  exists s', loop o fuel s = Some (All s') /\ inv o s' /\ P s' /\
    (forall l, l < o_links o -> t_link s' l = true) /\ (forall n, n < o_nodes o -> t_node s' n = Complete).
Proof.
  intros HP. induction fuel as [|fuel IH]; intros s I Ps Hm; [lia|]. cbn [loop]. fold (body o s).
  destruct (one_turn o s I) as (T & M). pose proof (turn_inv o s I _ T) as I'. pose proof (HP s _ I Ps T) as P'.
  destruct (check o (body o s)) as [s'|s'|s'].
  - exists s'. split; [reflexivity|]. split; [exact I'|]. split; [exact P'|]. inversion T as [C A E| |]. subst s'. cbn.
    split; [now apply count_zero|]. intros n Hn. unfold all_nodes_complete in A. rewrite forallb_forall in A.
    specialize (A n). rewrite in_seq in A. destruct (t_node (body o s) n); [|  |reflexivity]; cbn in A; discriminate A; lia.
  - apply IH; auto. lia.
  - inversion T.
Qed.

(** ** Back to the calls in their order *)

Lemma count_rev P tr : count P (rev tr) = count P tr.
Proof.
  unfold count. induction tr as [|e tr IH]; [reflexivity|]. cbn [rev]. rewrite filter_app, app_length, IH. cbn. destruct (P e); cbn; lia.
Qed.
Lemma count_app P u v : count P (u ++ v) = count P u + count P v.
Proof. unfold count. now rewrite filter_app, app_length. Qed.
Lemma count_once P Q tr : (forall e, P e = true <-> Q e) -> count P tr = 1 -> once Q tr.
Proof.
  intros H C. destruct (proj2 (count_in P tr)) as (e & Hi & He); [lia|]. apply in_split in Hi. destruct Hi as (u & v & ->).
  exists u, e, v. split; [reflexivity|]. split; [now apply H|]. intros x Hx Qx. apply H in Qx.
  rewrite count_app, count_cons, He in C. apply in_app_or in Hx.
  assert (0 < count P u \/ 0 < count P v) by (destruct Hx; [left|right]; apply count_in; eauto). lia.
Qed.

Lemma loop_more o fuel : forall s a, loop o fuel s = Some a -> forall k, loop o (fuel + k) s = Some a.
Proof.
  induction fuel as [|fuel IH]; intros s a H k; [discriminate|]. cbn [loop Nat.add] in *.
  destruct (check o (node_pass o (link_pass o s))); auto.
Qed.
Lemma begin_measure o : measure o (begin o) = 2 * o_links o.
Proof.
  unfold measure. replace (count_incomplete o (begin o)) with (o_links o).
  - cbn [begin t_num]. rewrite Nat.leb_refl. lia.
  - unfold count_incomplete. rewrite (filter_ext' _ (fun _ => true)) by reflexivity.
    assert (G : forall l : list nat, filter (fun _ => true) l = l) by (induction l; cbn; congruence).
    rewrite G, seq_length. reflexivity.
Qed.

(** What is known at the end of any update. *)
Lemma update_end o (P : st -> Prop) fuel tr e :
  (forall s a, inv o s -> P s -> turn o s a -> match a with All s' | Again s' => P s' | Thrown _ => True end) ->
  P (begin o) -> update o fuel = Some (tr, e) ->
  e = false /\ exists s, tr = rev (t_log s) /\ inv o s /\ P s /\
    (forall l, l < o_links o -> t_link s l = true) /\ (forall n, n < o_nodes o -> t_node s n = Complete).
Proof.
  intros HP P0 U. destruct (loop_ends o P HP (2 * o_links o + 1) (begin o) (inv_begin o) P0) as (s & L & R).
  { rewrite begin_measure. lia. }
  unfold update in U. destruct (loop o fuel (begin o)) as [a|] eqn:E; [|discriminate].
  assert (a = All s).
  { pose proof (loop_more o _ _ _ E (2 * o_links o + 1)) as E1. pose proof (loop_more o _ _ _ L fuel) as E2.
    rewrite Nat.add_comm in E2. congruence. }
  subst a. inversion U. subst. split; [reflexivity|]. exists s. split; [reflexivity|exact R].
Qed.
Lemma split_rev {A} (l : list A) u x v : rev l = u ++ x :: v -> l = rev v ++ x :: rev u.
Proof. intros H. rewrite <- (rev_involutive l), H, rev_app_distr. cbn. now rewrite <- app_assoc. Qed.

(** ** C107: every link and node is called exactly once *)

Theorem C107_terminates o : exists tr, forall fuel, 2 * o_links o + 1 <= fuel -> update o fuel = Some (tr, false).
Proof.
  destruct (loop_ends o (fun _ => True)) with (fuel := 2 * o_links o + 1) (s := begin o) as (s & L & _); auto.
  - intros s [| |]; auto. - apply inv_begin. - rewrite begin_measure. lia.
  - exists (rev (t_log s)). intros fuel Hf. unfold update. replace fuel with (2 * o_links o + 1 + (fuel - (2 * o_links o + 1))) by lia.
    rewrite (loop_more _ _ _ _ L). reflexivity.
Qed.

Theorem C107_once o fuel tr e : update o fuel = Some (tr, e) ->
  e = false /\
  (forall l, l < o_links o -> once (fun x => x = Compute l) tr /\ once (is_transport l) tr) /\
  (forall n, n < o_nodes o -> once (fun x => x = Integrate n) tr) /\
  (forall x, In x tr -> match x with Compute l | Transport l | Early l => l < o_links o | Integrate n => n < o_nodes o end).
Proof.
  intros U. destruct (update_end o (fun _ => True) fuel tr e) as (He & s & -> & I & _ & L & N); auto.
  { intros s [| |]; auto. }
  split; [exact He|]. split; [|split].
  - intros l Hl. split.
    + apply (count_once (is_c l)).
      * intros x. destruct x; cbn; rewrite ?Nat.eqb_eq; split; intros H; try discriminate; congruence.
      * rewrite count_rev, (v_c o s I). apply Nat.ltb_lt in Hl. now rewrite Hl.
    + apply (count_once (is_t l)); [apply is_t_spec|]. rewrite count_rev, (v_t o s I), (L l Hl). reflexivity.
  - intros n Hn. apply (count_once (is_i n)); [apply is_i_spec|]. rewrite count_rev, (v_i o s I), (N n Hn) by lia. reflexivity.
  - intros x Hx. rewrite <- in_rev in Hx.
    assert (Ht : forall l, is_t l x = true -> l < o_links o).
    { intros l Hl. apply (v_tl o s I). pose proof (v_t o s I l) as C.
      assert (0 < count (is_t l) (t_log s)) by (apply count_in; eauto). destruct (t_link s l); [reflexivity|lia]. }
    destruct x as [l|l|l|n].
    + pose proof (v_c o s I l) as C. assert (0 < count (is_c l) (t_log s)).
      { apply count_in. exists (Compute l). split; [exact Hx|]. cbn. apply Nat.eqb_refl. }
      destruct (Nat.ltb_spec l (o_links o)); [assumption|lia].
    + apply Ht. cbn. apply Nat.eqb_refl.
    + apply Ht. cbn. apply Nat.eqb_refl.
    + now apply (v_in o s I).
Qed.

(** ** C108: the order of the calls *)

Lemma update_order o fuel tr e : update o fuel = Some (tr, e) -> well_ordered o (rev tr).
Proof.
  intros U. destruct (update_end o (fun _ => True) fuel tr e) as (He & s & -> & I & _); auto.
  { intros s [| |]; auto. }
  rewrite rev_involutive. apply I.
Qed.
Lemma order_at o fuel tr e u x v : update o fuel = Some (tr, e) -> tr = u ++ x :: v ->
    match x with
    | Compute l => forall y, In y u -> exists k, y = Compute k
    | Transport l => forall n, takes_from o l n -> overflows o n -> In (Integrate n) u
    | Early l => True
    | Integrate n => forall l, l < o_links o -> gives_to o l n \/ calm o l -> exists y, In y u /\ is_transport l y
    end.
Proof.
  intros U E. pose proof (update_order o fuel tr e U) as W. specialize (W (rev v) x (rev u)).
  assert (E2 : rev tr = rev v ++ x :: rev u) by (rewrite E, rev_app_distr; cbn; now rewrite <- app_assoc).
  specialize (W E2). destruct x; auto.
  - intros y Hy. apply W. now apply in_rev in Hy.
  - intros n H1 H2. apply in_rev. now apply W.
  - intros l H1 H2. destruct (W l H1 H2) as (y & Hy & Ht). exists y. split; [now apply in_rev|exact Ht].
Qed.

(** No node integrates before what flows into it has arrived. *)
Theorem C108_inputs_first o fuel tr e n l : update o fuel = Some (tr, e) -> l < o_links o -> gives_to o l n ->
  after_transport tr l (Integrate n).
Proof. intros U Hl Hg u v E. apply (order_at o fuel tr e u (Integrate n) v U E); auto. Qed.
(** What leaves nodes that do not overflow leaves before anything is mixed in. *)
Theorem C108_calm_first o fuel tr e n l : update o fuel = Some (tr, e) -> l < o_links o ->
  (forall a, takes_from o l a -> ~ overflows o a) -> after_transport tr l (Integrate n).
Proof. intros U Hl Hc u v E. apply (order_at o fuel tr e u (Integrate n) v U E); auto. Qed.
(** What leaves an overflowing node in a pass leaves after mixing. *)
Theorem C108_overflow_waits o fuel tr e n l : update o fuel = Some (tr, e) -> takes_from o l n -> overflows o n ->
  before tr (Integrate n) (Transport l).
Proof. intros U Ht Ho u v E. apply (order_at o fuel tr e u (Transport l) v U E); auto. Qed.
Theorem C108_flows_computed_first o fuel tr e l x : update o fuel = Some (tr, e) -> l < o_links o ->
  (forall k, x <> Compute k) -> before tr (Compute l) x.
Proof.
  intros U Hl Hx u v E. destruct (C107_once o fuel tr e U) as (_ & H & _). destruct (H l Hl) as ((u' & y & v' & E' & -> & _) & _).
  assert (Hi : In (Compute l) tr) by (rewrite E'; apply in_elt). rewrite E in Hi. apply in_app_or in Hi.
  destruct Hi as [Hi|[Hi|Hi]]; [exact Hi|exfalso; exact (Hx l Hi)|]. exfalso.
  apply in_split in Hi. destruct Hi as (a & b & ->).
  pose proof (order_at o fuel tr e (u ++ x :: a) (Compute l) b U) as O. cbn in O.
  destruct (O ltac:(rewrite E, <- app_assoc; reflexivity) x) as (k & Hk); [apply in_elt|]. exact (Hx k Hk).
Qed.

(** With the links into each overflowing node listed before those out of it, also
    the forced transports take from nodes that have been mixed. *)
Theorem C108_upstream_first o fuel tr e n l : wired o -> upstream_first o -> update o fuel = Some (tr, e) ->
  takes_from o l n -> overflows o n -> before tr (Integrate n) (Early l).
Proof.
  intros W Up U Ht Ho.
  set (P := fun s => forall u k v, t_log s = u ++ Early k :: v -> forall m, takes_from o k m -> overflows o m -> In (Integrate m) v).
  assert (Pass : forall s, P s -> P (body o s)).
  { intros s Ps.
    assert (Add : forall t x, (forall k, x <> Early k) -> P t -> forall t', t_log t' = x :: t_log t -> P t').
    { intros t x Hx Pt t' Et u k v Eu. rewrite Et in Eu. destruct u as [|y u]; cbn in Eu; inversion Eu; subst; [congruence|].
      exact (Pt u k v H1). }
    unfold body, node_pass, link_pass. apply (fold_inv P).
    - apply (fold_inv P); [exact Ps|]. intros t x _ Pt. unfold link_step. destruct (_ && _); [|exact Pt].
      apply (Add t (Transport x)); [discriminate|exact Pt|reflexivity].
    - intros t x _ Pt. unfold node_step. destruct (_ && _); [|exact Pt].
      apply (Add t (Integrate x)); [discriminate|exact Pt|reflexivity]. }
  destruct (update_end o P fuel tr e) as (_ & s & -> & I & Ps & _); auto.
  - intros s a I Ps T. inversion T; subst.
    + exact (Pass s Ps).
    + intros u k v Eu m Hm Hom. cbn [t_log] in Eu. destruct u as [|y u]; cbn in Eu; inversion Eu; subst.
      2:{ exact (Pass s Ps u k v H4 m Hm Hom). }
      assert (Hmn : m <= o_nodes o) by (apply takes_from_spec in Hm; destruct Hm as (d & Hd & _); exact (W _ _ _ Hd)).
      assert (Hmn' : m <> o_nodes o) by apply Hom.
      apply (integrated o (body o s) m); [now apply inv_body|exact Hmn'|].
      unfold body. apply node_pass_complete; [lia|]. apply inputs_complete_spec. intros j Hj Hg.
      assert (Hjk : j < k) by (apply (Up m j k); auto).
      specialize (H1 j Hjk). unfold body in H1. rewrite (proj1 (node_pass_links o _)) in H1. exact H1.
    + exact (Pass s Ps).
  - intros u k v Eu. exfalso. assert (Hi : In (Early k) (t_log (begin o))) by (rewrite Eu; apply in_elt).
    cbn in Hi. rewrite <- in_rev in Hi. apply in_map_iff in Hi. destruct Hi as (j & Hj & _). discriminate.
  - intros u v E. apply split_rev in E. specialize (Ps (rev v) l (rev u) E n Ht Ho). now apply in_rev.
Qed.

(** When no link takes from an overflowing node, the calls are these. *)
Lemma link_steps_plain o N s : (forall l, l < N -> sources_ready o s l = true) -> (forall l, t_link s l = false) ->
  let s' := fold_left (link_step o) (seq 0 N) s in
  t_log s' = rev (map Transport (seq 0 N)) ++ t_log s /\ t_node s' = t_node s /\ (forall l, t_link s' l = (l <? N)).
Proof.
  intros R L. induction N as [|N IH]; [cbn; auto|].
  rewrite seq_S, fold_left_app. cbn [fold_left Nat.add]. destruct IH as (I1 & I2 & I3); [intros; apply R; lia|]. cbv zeta in *.
  set (t := fold_left (link_step o) (seq 0 N) s) in *. unfold link_step.
  rewrite I3, Nat.ltb_irrefl. replace (sources_ready o t N) with true.
  - cbn [negb andb done_link t_log t_node t_link]. rewrite map_app, rev_app_distr, I1. cbn [map rev app]. split; [reflexivity|]. split; [exact I2|].
    intros l. unfold setb. rewrite I3. destruct (Nat.eqb_spec l N), (Nat.ltb_spec l N), (Nat.ltb_spec l (S N)); try lia; reflexivity.
  - symmetry. rewrite sources_ready_spec, I2. apply sources_ready_spec, R. lia.
Qed.
Lemma node_steps_plain o N s : (forall n, n < N -> inputs_complete o s n = true) -> (forall n, n < N -> t_node s n <> Complete) ->
  let s' := fold_left (node_step o) (seq 0 N) s in
  t_log s' = rev (map Integrate (seq 0 N)) ++ t_log s /\ t_link s' = t_link s /\ (forall n, N <= n -> t_node s' n = t_node s n).
Proof.
  intros R L. induction N as [|N IH]; [cbn; auto|].
  rewrite seq_S, fold_left_app. cbn [fold_left Nat.add].
  destruct IH as (I1 & I2 & I3); [intros; apply R; lia|intros; apply L; lia|]. cbv zeta in *.
  set (t := fold_left (node_step o) (seq 0 N) s) in *. unfold node_step. rewrite (I3 N) by lia.
  replace (inputs_complete o t N) with true.
  - assert (C : is_complete (t_node s N) = false) by (specialize (L N ltac:(lia)); destruct (t_node s N); [reflexivity|reflexivity|congruence]).
    rewrite C. cbn [negb andb done_node t_log t_node t_link]. rewrite map_app, rev_app_distr, I1. cbn [map rev app]. split; [reflexivity|]. split; [exact I2|].
    intros n Hn. rewrite setb_other by lia. apply I3. lia.
  - symmetry. rewrite inputs_complete_spec, I2. apply inputs_complete_spec, R. lia.
Qed.

Theorem C108_plain o fuel : (forall l a, l < o_links o -> takes_from o l a -> ~ overflows o a) -> 0 < fuel ->
  update o fuel = Some (map Compute (seq 0 (o_links o)) ++ map Transport (seq 0 (o_links o)) ++ map Integrate (seq 0 (o_nodes o)), false).
Proof.
  intros H Hf. destruct fuel as [|fuel]; [lia|]. unfold update. cbn [loop].
  destruct (link_steps_plain o (o_links o) (begin o)) as (A1 & A2 & A3).
  { intros l Hl. apply sources_ready_spec. intros n Hn. apply (v_no o _ (inv_begin o)). exact (H l n Hl Hn). }
  { reflexivity. }
  cbv zeta in *. fold (link_pass o (begin o)) in *. set (t := link_pass o (begin o)) in *.
  destruct (node_steps_plain o (o_nodes o) t) as (B1 & B2 & B3).
  { intros n Hn. apply inputs_complete_spec. intros l Hl _. rewrite A3. now apply Nat.ltb_lt. }
  { intros n Hn. rewrite A2. cbn. destruct (Nat.eqb_spec n (o_nodes o)); [lia|]. destruct (o_over o n); discriminate. }
  cbv zeta in *. fold (node_pass o t) in *.
  assert (C0 : count_incomplete o t = 0) by (apply count_zero; intros l Hl; rewrite A3; now apply Nat.ltb_lt).
  unfold check. rewrite (all_complete o t C0), count_node_pass, C0. cbn [Nat.eqb andb t_log].
  rewrite B1, A1. cbn [begin t_log]. rewrite !rev_app_distr, !rev_involutive, <- app_assoc. reflexivity.
Qed.

(** ** Witnesses *)

Ltac w_cases := intros; repeat match goal with
  | H : _ \/ _ |- _ => destruct H
  | H : False |- _ => destruct H
  | H : (_, _) = (_, _) |- _ => inversion H; clear H; subst
  end; try discriminate; try lia.

(** Node 0 feeds node 1 through link 1, node 1 feeds node 2 through link 0; nodes 0
    and 1 overflow.  Node 3 is ground. *)
Definition w_chain : net :=
  mknet 2 3 (fun l => if Nat.eqb l 0 then [(1, DSource); (2, DSink)] else [(0, DSource); (1, DSink)])
        (fun n => Nat.ltb n 2).
(** There is no loop of flows, yet link 0 takes from node 1 before node 1 is mixed. *)
Theorem C108_early_refuted : exists o tr n l, no_loop o /\ wired o /\ update o (2 * o_links o + 1) = Some (tr, false) /\
  takes_from o l n /\ overflows o n /\
  exists u v, tr = u ++ Early l :: v /\ ~ In (Integrate n) u.
Proof.
  exists w_chain, [Compute 0; Compute 1; Integrate 0; Early 0; Transport 1; Integrate 1; Integrate 2], 1, 0.
  split; [|split; [|split; [reflexivity|split; [left; left; reflexivity|split]]]].
  - exists (fun n => n). intros l a b Hl. unfold takes_from, gives_to, w_chain. cbn. destruct (Nat.eqb l 0); cbn; w_cases.
  - intros l n d. cbn. destruct (Nat.eqb l 0); cbn; intros [E|[E|[]]]; inversion E; lia.
  - split; [discriminate|reflexivity].
  - exists [Compute 0; Compute 1; Integrate 0], [Transport 1; Integrate 1; Integrate 2]. split; [reflexivity|].
    cbn. intuition discriminate.
Qed.

(** One link out of one overflowing node: it is transported early, with the warning,
    though the node has been mixed and nothing was stuck. *)
Theorem C108_warning_refuted : exists o tr l, no_loop o /\ wired o /\ upstream_first o /\
  update o (2 * o_links o + 1) = Some (tr, false) /\ In (Early l) tr /\
  forall n, takes_from o l n -> before tr (Integrate n) (Early l).
Proof.
  exists (mknet 1 1 (fun _ => [(0, DSource); (1, DSink)]) (fun _ => true)), [Compute 0; Integrate 0; Early 0], 0.
  split; [|split; [|split; [|split; [reflexivity|split; [right; right; left; reflexivity|]]]]].
  - exists (fun n => n). intros l a b _. unfold takes_from, gives_to. cbn. w_cases.
  - intros l n d. cbn. intros [E|[E|[]]]; inversion E; lia.
  - intros n a b (Hn & _) Ha Hb. unfold gives_to. cbn in *. w_cases.
  - intros n Hn u v E. assert (n = 0) as ->.
    { unfold takes_from in Hn. cbn in Hn. w_cases; reflexivity. }
    destruct u as [|a u]; [discriminate|]. destruct u as [|b u]; [discriminate|]. inversion E. right; left; reflexivity.
Qed.

(** The chain with its links listed downstream last. *)
Example C108_upstream_first_not_vacuous :
  let o := mknet 2 3 (fun l => if Nat.eqb l 1 then [(1, DSource); (2, DSink)] else [(0, DSource); (1, DSink)]) (fun n => Nat.ltb n 2) in
  wired o /\ upstream_first o /\ takes_from o 1 1 /\ overflows o 1 /\
  update o 5 = Some ([Compute 0; Compute 1; Integrate 0; Early 0; Integrate 1; Transport 1; Integrate 2], false).
Proof.
  cbv zeta. split; [|split; [|split; [left; left; reflexivity|split; [split; [discriminate|reflexivity]|reflexivity]]]].
  - intros l n d. cbn. destruct (Nat.eqb l 1); cbn; intros [E|[E|[]]]; inversion E; lia.
  - intros n a b (_ & Hn). cbn in Hn. unfold gives_to, takes_from. cbn.
    destruct a as [|[|a]], b as [|[|b]]; cbn; try lia; intros _ _; w_cases.
Qed.
(** A loop of two overflowing nodes is broken at one link. *)
Example C107_not_vacuous :
  update (mknet 2 2 (fun l => if Nat.eqb l 1 then [(1, DSource); (0, DSink)] else [(0, DSource); (1, DSink)]) (fun _ => true)) 5 =
  Some ([Compute 0; Compute 1; Early 0; Integrate 1; Transport 1; Integrate 0], false).
Proof. reflexivity. Qed.
Example C108_plain_not_vacuous :
  update (mknet 2 2 (fun l => if Nat.eqb l 1 then [(1, DSource); (0, DSink)] else [(0, DSource); (1, DSink)]) (fun _ => false)) 1 =
  Some ([Compute 0; Compute 1; Transport 0; Transport 1; Integrate 0; Integrate 1], false).
Proof. reflexivity. Qed.

Print Assumptions C107_terminates.
Print Assumptions C107_once.
Print Assumptions C108_inputs_first.
Print Assumptions C108_calm_first.
Print Assumptions C108_overflow_waits.
Print Assumptions C108_flows_computed_first.
Print Assumptions C108_upstream_first.
Print Assumptions C108_plain.
Print Assumptions C108_early_refuted.
