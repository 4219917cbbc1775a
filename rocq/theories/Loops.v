(** Loop combinators and finite sums used by the transcriptions. *)
From Coq Require Import Reals Lra Lia List Arith.
From Verif Require Import Num.

(** [for (i = lo; i < lo+cnt; ++i) s = f(i,s);] *)
Fixpoint loop {S : Type} (f : nat -> S -> S) (lo cnt : nat) (s : S) : S :=
  match cnt with
  | O => s
  | Datatypes.S c => loop f (Datatypes.S lo) c (f lo s)
  end.

(** The same with a body that may throw: [inr e] stops the loop. *)
Fixpoint loopE {S E : Type} (f : nat -> S -> S + E) (lo cnt : nat) (s : S) : S + E :=
  match cnt with
  | O => inl s
  | Datatypes.S c =>
      match f lo s with
      | inl s' => loopE f (Datatypes.S lo) c s'
      | inr e => inr e
      end
  end.

Lemma loop_inv {S : Type} (P : nat -> S -> Prop) f cnt : forall lo s,
  P lo s ->
  (forall i s, lo <= i < lo + cnt -> P i s -> P (Datatypes.S i) (f i s)) ->
  P (lo + cnt) (loop f lo cnt s).
Proof.
  induction cnt as [|c IH]; intros lo s H0 Hstep; cbn.
  - now rewrite Nat.add_0_r.
  - replace (lo + Datatypes.S c) with (Datatypes.S lo + c) by lia.
    apply IH.
    + apply Hstep; [lia | exact H0].
    + intros i s' Hi. apply Hstep. lia.
Qed.

Lemma loopE_inv {S E : Type} (P : nat -> S -> Prop) (Q : E -> Prop) f cnt : forall lo s,
  P lo s ->
  (forall i s, lo <= i < lo + cnt -> P i s ->
     match f i s with inl s' => P (Datatypes.S i) s' | inr e => Q e end) ->
  match loopE f lo cnt s with
  | inl s' => P (lo + cnt) s'
  | inr e => Q e
  end.
Proof.
  induction cnt as [|c IH]; intros lo s H0 Hstep; cbn.
  - now rewrite Nat.add_0_r.
  - pose proof (Hstep lo s ltac:(lia) H0) as H1.
    destruct (f lo s) as [s'|e]; [|exact H1].
    replace (lo + Datatypes.S c) with (Datatypes.S lo + c) by lia.
    apply IH; [exact H1|].
    intros i s'' Hi. apply Hstep. lia.
Qed.

Lemma loop_ext {S : Type} (f g : nat -> S -> S) cnt : forall lo s,
  (forall i s, lo <= i < lo + cnt -> f i s = g i s) ->
  loop f lo cnt s = loop g lo cnt s.
Proof.
  induction cnt as [|c IH]; intros lo s H; cbn; [reflexivity|].
  rewrite H by lia. apply IH. intros i s' Hi. apply H. lia.
Qed.

Lemma loop_snoc {S : Type} (f : nat -> S -> S) cnt : forall lo s,
  loop f lo (Datatypes.S cnt) s = f (lo + cnt) (loop f lo cnt s).
Proof.
  induction cnt as [|c IH]; intros lo s.
  - cbn. now rewrite Nat.add_0_r.
  - change (loop f lo (Datatypes.S (Datatypes.S c)) s)
      with (loop f (Datatypes.S lo) (Datatypes.S c) (f lo s)).
    rewrite IH. cbn. f_equal. lia.
Qed.

(** Left-to-right sum of [f 0 .. f (n-1)]. *)
Fixpoint rsum (n : nat) (f : nat -> R) : R :=
  match n with
  | O => 0%R
  | S m => (rsum m f + f m)%R
  end.

Local Open Scope R_scope.

Lemma rsum_ext n f g : (forall i, (i < n)%nat -> f i = g i) -> rsum n f = rsum n g.
Proof.
  induction n as [|n IH]; intros H; cbn; [reflexivity|].
  rewrite IH by (intros; apply H; lia). rewrite H by lia. reflexivity.
Qed.

Lemma rsum_plus n f g : rsum n (fun i => f i + g i) = rsum n f + rsum n g.
Proof. induction n as [|n IH]; cbn; [lra|]. rewrite IH. lra. Qed.

Lemma rsum_minus n f g : rsum n (fun i => f i - g i) = rsum n f - rsum n g.
Proof. induction n as [|n IH]; cbn; [lra|]. rewrite IH. lra. Qed.

Lemma rsum_scal n c f : rsum n (fun i => c * f i) = c * rsum n f.
Proof. induction n as [|n IH]; cbn; [lra|]. rewrite IH. lra. Qed.

Lemma rsum_scal_r n c f : rsum n (fun i => f i * c) = rsum n f * c.
Proof. induction n as [|n IH]; cbn; [lra|]. rewrite IH. lra. Qed.

Lemma rsum_zero n f : (forall i, (i < n)%nat -> f i = 0) -> rsum n f = 0.
Proof.
  induction n as [|n IH]; intros H; cbn; [reflexivity|].
  rewrite IH by (intros; apply H; lia). rewrite H by lia. lra.
Qed.

Lemma rsum_le n f g : (forall i, (i < n)%nat -> f i <= g i) -> rsum n f <= rsum n g.
Proof.
  induction n as [|n IH]; intros H; cbn; [lra|].
  apply Rplus_le_compat; [apply IH; intros; apply H; lia | apply H; lia].
Qed.

Lemma rsum_nonneg n f : (forall i, (i < n)%nat -> 0 <= f i) -> 0 <= rsum n f.
Proof.
  intros H. induction n as [|n IH]; cbn; [lra|].
  assert (0 <= f n) by (apply H; lia).
  assert (0 <= rsum n f) by (apply IH; intros; apply H; lia). lra.
Qed.

Lemma rsum_abs n f : Rabs (rsum n f) <= rsum n (fun i => Rabs (f i)).
Proof.
  induction n as [|n IH]; cbn; [rewrite Rabs_R0; lra|].
  eapply Rle_trans; [apply Rabs_triang|]. lra.
Qed.

Lemma rsum_split n m f : rsum (n + m) f = rsum n f + rsum m (fun i => f (n + i)%nat).
Proof.
  induction m as [|m IH]; cbn.
  - rewrite Nat.add_0_r. lra.
  - rewrite Nat.add_succ_r. cbn. rewrite IH. lra.
Qed.

Lemma rsum_S_left n f : rsum (S n) f = f O + rsum n (fun i => f (S i)).
Proof. rewrite (rsum_split 1 n). cbn. lra. Qed.

Lemma rsum_swap n m f :
  rsum n (fun i => rsum m (fun j => f i j)) = rsum m (fun j => rsum n (fun i => f i j)).
Proof.
  induction n as [|n IH]; cbn.
  - symmetry. apply rsum_zero. reflexivity.
  - rewrite IH. rewrite <- rsum_plus. reflexivity.
Qed.

(** Extract one term. *)
Lemma rsum_extract n k f : (k < n)%nat ->
  rsum n f = f k + rsum n (fun i => if Nat.eqb i k then 0 else f i).
Proof.
  induction n as [|n IH]; intros H; [lia|]. cbn.
  destruct (Nat.eqb_spec n k) as [->|Hne].
  - replace (rsum k (fun i => if Nat.eqb i k then 0 else f i)) with (rsum k f).
    + lra.
    + apply rsum_ext. intros i Hi. destruct (Nat.eqb_spec i k); [lia|reflexivity].
  - rewrite IH by lia. lra.
Qed.

Lemma rsum_single n k f : (k < n)%nat ->
  (forall i, (i < n)%nat -> i <> k -> f i = 0) -> rsum n f = f k.
Proof.
  intros Hk H. rewrite (rsum_extract n k) by assumption.
  rewrite rsum_zero; [lra|].
  intros i Hi. destruct (Nat.eqb_spec i k); [reflexivity|]. now apply H.
Qed.

(** Sum to a bound, ignoring a zero tail. *)
Lemma rsum_tail0 n m f : (n <= m)%nat -> (forall i, (n <= i < m)%nat -> f i = 0) ->
  rsum m f = rsum n f.
Proof.
  intros Hnm H. replace m with (n + (m - n))%nat by lia. rewrite rsum_split.
  rewrite (rsum_zero (m - n)); [lra|]. intros i Hi. apply H. lia.
Qed.

(** Two loops run in lock step. *)
Lemma loop_rel {S1 S2 : Type} (P : nat -> S1 -> S2 -> Prop) f g cnt : forall lo s t,
  P lo s t ->
  (forall i s t, (lo <= i < lo + cnt)%nat -> P i s t -> P (Datatypes.S i) (f i s) (g i t)) ->
  P (lo + cnt)%nat (loop f lo cnt s) (loop g lo cnt t).
Proof.
  induction cnt as [|c IH]; intros lo s t H0 Hstep; cbn.
  - now rewrite Nat.add_0_r.
  - replace (lo + Datatypes.S c)%nat with (Datatypes.S lo + c)%nat by lia.
    apply IH.
    + apply Hstep; [lia | exact H0].
    + intros i s' t' Hi. apply Hstep. lia.
Qed.

Lemma loopE_rel {S1 S2 E1 E2 : Type} (P : nat -> S1 -> S2 -> Prop) (Q : E1 -> E2 -> Prop) f g cnt :
  forall lo s t,
  P lo s t ->
  (forall i s t, (lo <= i < lo + cnt)%nat -> P i s t ->
     match f i s, g i t with
     | inl s', inl t' => P (Datatypes.S i) s' t'
     | inr e, inr e' => Q e e'
     | _, _ => False
     end) ->
  match loopE f lo cnt s, loopE g lo cnt t with
  | inl s', inl t' => P (lo + cnt)%nat s' t'
  | inr e, inr e' => Q e e'
  | _, _ => False
  end.
Proof.
  induction cnt as [|c IH]; intros lo s t H0 Hstep; cbn.
  - now rewrite Nat.add_0_r.
  - pose proof (Hstep lo s t ltac:(lia) H0) as H1.
    destruct (f lo s) as [s'|e], (g lo t) as [t'|e']; try contradiction; [|exact H1].
    replace (lo + Datatypes.S c)%nat with (Datatypes.S lo + c)%nat by lia.
    apply IH; [exact H1|].
    intros i s'' t'' Hi. apply Hstep. lia.
Qed.

Lemma loopE_ext {S E : Type} (f g : nat -> S -> S + E) cnt : forall lo s,
  (forall i s, (lo <= i < lo + cnt)%nat -> f i s = g i s) ->
  loopE f lo cnt s = loopE g lo cnt s.
Proof.
  induction cnt as [|c IH]; intros lo s H; cbn; [reflexivity|].
  rewrite H by lia. destruct (g lo s); [|reflexivity]. apply IH. intros i s' Hi. apply H. lia.
Qed.
