(** Decomposition by islands equals decomposition in one piece (C12), over the reals. *)
From Coq Require Import Reals Lra Lia List Arith Bool ZArith.
From Verif Require Import Num Loops Spec_Ldu Ldu LduFacts LduDom Spec_Islands Islands.
Import ListNotations.

Section Model.
  Context {T : Type} `{Num T}.

  (** Gunns.cpp:1015-1021: form the island's sub-matrix. *)
  Definition gather_island (v : list nat) (A : mat T) : mat T :=
    fun a b => A (nth a v 0) (nth b v 0).
  (** Gunns.cpp:1026-1032: copy it back. *)
  Definition scatter_island (v : list nat) (G : mat T) (A : mat T) : mat T :=
    loop (fun i A => loop (fun j A => upd A (nth i v 0) (nth j v 0) (G i j)) 0 (length v) A)
         0 (length v) A.
  (** Gunns.cpp:1011-1034, one island on the CPU; [inr (island, row, A)] is the
      exception with the main matrix left behind. *)
  Definition island_pass (vecs : nat -> list nat) (island : nat) (A : mat T)
    : mat T + (nat * nat * mat T) :=
    let v := vecs island in
    let m := length v in
    if Nat.ltb 0 m then
      let G := gather_island v A in
      match (if Nat.ltb 1 m then decompose m G else inl G) with
      | inl G' => inl (scatter_island v G' A)
      | inr (row, _) => inr (island, row, A)
      end
    else inl A.
  (** Gunns.cpp:1009-1036. *)
  Definition decompose_islands (n : nat) (vecs : nat -> list nat) (A : mat T)
    : mat T + (nat * nat * mat T) := loopE (island_pass vecs) 0 n A.

  (** Off-diagonal is not zero, Gunns.cpp:1279. *)
  Definition nonzero (A : mat T) (i j : nat) : bool := negb (A i j ==~ n0).
End Model.

Local Open Scope R_scope.

(** ** Increasing lists *)

Lemma increasing_cons x l : increasing (x :: l) -> increasing l /\ forall y, In y l -> (x < y)%nat.
Proof.
  revert x. induction l as [|a l IH]; intros x [H1 H2]; [split; [exact I|contradiction]|].
  split; [exact H2|]. intros y [->|Hy]; [exact H1|].
  destruct (IH a H2) as [_ H3]. specialize (H3 y Hy). lia.
Qed.

Lemma increasing_nth l : increasing l -> forall a b, (a < b)%nat -> (b < length l)%nat ->
  (nth a l 0 < nth b l 0)%nat.
Proof.
  induction l as [|x l IH]; intros Hi a b Hab Hb; [cbn in Hb; lia|].
  apply increasing_cons in Hi. destruct Hi as [Hi Hx].
  destruct b as [|b]; [lia|]. destruct a as [|a]; cbn.
  - apply Hx. apply nth_In. cbn in Hb. lia.
  - apply IH; auto; cbn in Hb; lia.
Qed.

Lemma increasing_nth_inj l : increasing l -> forall a b, (a < length l)%nat -> (b < length l)%nat ->
  nth a l 0%nat = nth b l 0%nat -> a = b.
Proof.
  intros Hi a b Ha Hb E. destruct (lt_eq_lt_dec a b) as [[H|H]|H]; auto.
  - pose proof (increasing_nth l Hi a b H Hb). lia.
  - pose proof (increasing_nth l Hi b a H Ha). lia.
Qed.

(** ** Scatter *)

Lemma scatter_spec v (G A : mat R) : increasing v ->
  let B := scatter_island v G A in
  (forall a b, (a < length v)%nat -> (b < length v)%nat -> B (nth a v 0%nat) (nth b v 0%nat) = G a b) /\
  (forall i j, ~ (In i v /\ In j v) -> B i j = A i j).
Proof.
  intros Hv. cbv zeta. unfold scatter_island.
  pose proof (increasing_nth_inj v Hv) as Hinj.
  pose proof (loop_inv (fun m (B : mat R) => (m <= length v)%nat ->
    (forall a b, (a < m)%nat -> (b < length v)%nat -> B (nth a v 0%nat) (nth b v 0%nat) = G a b) /\
    (forall i j, ~ (In i v /\ In j v) -> B i j = A i j))
    (fun i A => loop (fun j A => upd A (nth i v 0%nat) (nth j v 0%nat) (G i j)) 0 (length v) A)
    (length v) 0%nat A) as HL.
  apply HL; [| |lia]; clear HL.
  - intros _. split; [intros; lia|auto].
  - intros i B Hi IH Hm. destruct IH as (H1 & H2); [lia|].
    pose proof (loop_inv (fun m (C : mat R) => (m <= length v)%nat ->
      (forall b, (b < m)%nat -> C (nth i v 0%nat) (nth b v 0%nat) = G i b) /\
      (forall a b, a <> nth i v 0%nat \/ ~ In b v -> C a b = B a b))
      (fun j A => upd A (nth i v 0%nat) (nth j v 0%nat) (G i j)) (length v) 0%nat B) as HJ.
    destruct HJ as (J1 & J2); [| |lia|].
    + intros _. split; [intros; lia|auto].
    + intros j C Hj IH Hjm. destruct IH as (J1 & J2); [lia|]. split.
      * intros b Hb. destruct (Nat.eq_dec b j) as [->|Hne]; [apply upd_eq|].
        rewrite upd_neq; [apply J1; lia|]. right. intros E. apply Hne, Hinj; auto; lia.
      * intros a b Hab. rewrite upd_neq; [now apply J2|].
        destruct Hab as [Ha|Hb]; [now left|]. right. intros ->. apply Hb, nth_In. lia.
    + split.
      * intros a b Ha Hb. destruct (Nat.eq_dec a i) as [->|Hne]; [apply J1; lia|].
        rewrite J2; [apply H1; lia|]. left. intros E. apply Hne, Hinj; auto; lia.
      * intros a b Hab. rewrite J2; [now apply H2|].
        destruct (Nat.eq_dec a (nth i v 0%nat)) as [->|Hne]; [|now left].
        right. intros Hb. apply Hab. split; [apply nth_In; lia|exact Hb].
Qed.

(** ** Right-looking elimination respects islands *)

Section Sch.
  Variable n : nat.
  Variable A : mat R.
  Variable lab : nat -> nat.
  Hypothesis Hzero : forall i j, (i < n)%nat -> (j < n)%nat -> lab i <> lab j -> A i j = 0.

  Lemma flushR_0 : flushR 0 = 0.
  Proof. unfold flushR. destruct (_ && _); reflexivity. Qed.
  Lemma keepR_0_l y : keepR 0 y = 0.
  Proof. unfold keepR. destruct (_ && _); lra. Qed.
  Lemma keepR_0_r x : keepR x 0 = 0.
  Proof. unfold keepR. destruct (_ && _); lra. Qed.

  Lemma sch_cross k : (k <= n)%nat -> forall r c, (r < n)%nat -> (c < n)%nat -> lab r <> lab c -> sch A k r c = 0.
  Proof.
    induction k as [|k IH]; intros Hk r c Hr Hc Hlab; cbn [sch]; [now apply Hzero|].
    rewrite (IH ltac:(lia) r c Hr Hc Hlab).
    destruct (Nat.eqb_spec r c) as [->|_]; [congruence|].
    destruct (Nat.eq_dec (lab r) (lab k)) as [E|E].
    - rewrite (IH ltac:(lia) c k) by (lia || congruence). rewrite flushR_0.
      unfold Rdiv. rewrite Rmult_0_l, keepR_0_r. lra.
    - rewrite (IH ltac:(lia) r k) by (lia || congruence). rewrite flushR_0, keepR_0_l. lra.
  Qed.

  Lemma sch_skip k1 k2 r c : (k1 <= k2)%nat -> (k2 <= n)%nat -> (r < n)%nat -> (c < n)%nat ->
    (forall k, (k1 <= k < k2)%nat -> lab k <> lab r) ->
    sch A k2 r c = sch A k1 r c.
  Proof.
    intros H12 H2n Hr Hc Hno. induction k2 as [|k IH]; [replace k1 with 0%nat by lia; reflexivity|].
    destruct (Nat.eq_dec k1 (S k)) as [->|Hne]; [reflexivity|].
    cbn [sch]. rewrite (sch_cross k ltac:(lia) r k) by (try lia; apply not_eq_sym, Hno; lia).
    rewrite flushR_0, keepR_0_l, Rmult_0_l.
    rewrite IH by (try lia; intros; apply Hno; lia). destruct (Nat.eqb r c); lra.
  Qed.

  Variable I : nat.
  Let v := filter (fun i => Nat.eqb (lab i) I) (seq 0 n).
  Let G : mat R := fun a b => A (nth a v 0%nat) (nth b v 0%nat).

  Lemma v_in i : In i v <-> (i < n)%nat /\ lab i = I.
  Proof.
    unfold v. rewrite filter_In, in_seq, Nat.eqb_eq. split; intros [H1 H2]; split; auto; lia.
  Qed.
  Lemma v_incr : increasing v.
  Proof. apply increasing_filter_seq. Qed.
  Lemma v_nth a : (a < length v)%nat -> (nth a v 0 < n)%nat /\ lab (nth a v 0%nat) = I.
  Proof. intros Ha. apply v_in. now apply nth_In. Qed.

  (** No member strictly between consecutive members, nor before the first. *)
  Lemma v_between b k : (b < length v)%nat -> (k < nth b v 0)%nat ->
    (forall b', (b' < b)%nat -> (nth b' v 0 < k)%nat) -> lab k <> I.
  Proof.
    intros Hb Hk Hprev E.
    assert (Hin : In k v) by (apply v_in; split; [pose proof (v_nth b Hb); lia|exact E]).
    apply In_nth with (d := 0%nat) in Hin. destruct Hin as (c & Hc & <-).
    destruct (Nat.lt_ge_cases c b) as [H|H]; [specialize (Hprev c H); lia|].
    destruct (Nat.eq_dec b c) as [->|Hne]; [lia|].
    pose proof (increasing_nth v v_incr b c ltac:(lia) Hc). lia.
  Qed.

  Lemma sch_gather b : (b < length v)%nat -> forall a c, (a < length v)%nat -> (c < length v)%nat ->
    sch G b a c = sch A (nth b v 0%nat) (nth a v 0%nat) (nth c v 0%nat).
  Proof.
    induction b as [|b IH]; intros Hb a c Ha Hc.
    - cbn [sch]. unfold G. destruct (v_nth a Ha) as (Ha1 & Ha2). destruct (v_nth c Hc) as (Hc1 & Hc2).
      rewrite (sch_skip 0 (nth 0 v 0%nat)); auto; try lia.
      + pose proof (v_nth 0 Hb). lia.
      + intros k Hk. rewrite Ha2. apply (v_between 0); auto; [lia|]. intros; lia.
    - destruct (v_nth a Ha) as (Ha1 & Ha2). destruct (v_nth c Hc) as (Hc1 & Hc2).
      destruct (v_nth b ltac:(lia)) as (Hb1 & Hb2). destruct (v_nth (S b) Hb) as (Hs1 & Hs2).
      pose proof (increasing_nth v v_incr b (S b) ltac:(lia) Hb) as Hlt.
      rewrite (sch_skip (S (nth b v 0%nat)) (nth (S b) v 0%nat)); auto; try lia.
      2: { intros k Hk. rewrite Ha2. apply (v_between (S b)); auto; [lia|].
           intros b' Hb'. destruct (Nat.eq_dec b' b) as [->|Hne]; [lia|].
           pose proof (increasing_nth v v_incr b' b ltac:(lia) ltac:(lia)). lia. }
      cbn [sch]. rewrite !(IH ltac:(lia)) by lia. f_equal.
      destruct (Nat.eqb_spec a c) as [->|Hne]; [now rewrite Nat.eqb_refl|].
      destruct (Nat.eqb_spec (nth a v 0%nat) (nth c v 0%nat)) as [E|E]; [|reflexivity].
      exfalso. apply Hne. now apply (increasing_nth_inj v v_incr).
  Qed.
End Sch.

(** Entry of the decomposed array in terms of [sch]. *)
Definition ent (A : mat R) (i j : nat) : R :=
  if Nat.eqb i j then sch A i i i
  else let r := Nat.max i j in let c := Nat.min i j in flushR (sch A c r c) / sch A c c c.

Lemma rows_done_ent A M U m : rows_done A M U m ->
  forall i j, (i < m)%nat -> (j < m)%nat -> M i j = ent A i j.
Proof.
  intros HR i j Hi Hj. pose proof (rows_done_sch A M U m HR) as Hs.
  destruct HR as (Hlow & _). unfold ent.
  destruct (Nat.eqb_spec i j) as [->|Hne]; [now apply Hs|].
  destruct (Nat.lt_ge_cases j i) as [H|H].
  - rewrite Nat.max_l, Nat.min_r by lia. destruct (Hs i Hi) as (Hr & _). now apply Hr.
  - rewrite Nat.max_r, Nat.min_l by lia. destruct (Hlow j i ltac:(lia) Hj) as (_ & _ & ->).
    destruct (Hs j Hj) as (Hr & _). apply Hr. lia.
Qed.

Lemma decompose_ent n A : (1 <= n)%nat ->
  match decompose n A with
  | inl M => (forall i j, (i < n)%nat -> (j < n)%nat -> M i j = ent A i j) /\
             (forall r, (1 <= r < n)%nat -> 0 < ent A r r)
  | inr (r, M) => (1 <= r < n)%nat /\ ent A r r <= 0 /\ (forall k, (1 <= k < r)%nat -> 0 < ent A k k)
  end.
Proof.
  intros Hn. pose proof (decompose_spec n A Hn) as HS.
  destruct (decompose n A) as [M|[r M]].
  - destruct HS as (U & HR & Hp). pose proof (rows_done_ent A M U n HR) as HE.
    split; [exact HE|]. intros r Hr. rewrite <- HE by lia. now apply Hp.
  - destruct HS as (Hr & Hle & U & HR & Hp). pose proof (rows_done_ent A M U (S r) HR) as HE.
    split; [exact Hr|]. split; [rewrite <- HE by lia; exact Hle|].
    intros k Hk. rewrite <- HE by lia. now apply Hp.
Qed.

Section Whole.
  Variable n : nat.
  Variable A : mat R.
  Variable lab : nat -> nat.
  Variable vecs : nat -> list nat.
  Hypothesis Hn : (1 <= n)%nat.
  Hypothesis Hlab : forall i, (i < n)%nat -> (lab i < n)%nat.
  Hypothesis Hvecs : forall k, (k < n)%nat -> vecs k = filter (fun i => Nat.eqb (lab i) k) (seq 0 n).
  Hypothesis Hzero : forall i j, (i < n)%nat -> (j < n)%nat -> lab i <> lab j -> A i j = 0.

  Lemma ent_cross i j : (i < n)%nat -> (j < n)%nat -> lab i <> lab j -> ent A i j = 0.
  Proof.
    intros Hi Hj Hl. unfold ent. destruct (Nat.eqb_spec i j) as [->|Hne]; [congruence|].
    destruct (Nat.lt_ge_cases j i) as [H|H].
    - rewrite Nat.max_l, Nat.min_r by lia. rewrite (sch_cross n A lab Hzero) by (auto; lia).
      rewrite flushR_0. unfold Rdiv. lra.
    - rewrite Nat.max_r, Nat.min_l by lia. rewrite (sch_cross n A lab Hzero) by (auto; lia).
      rewrite flushR_0. unfold Rdiv. lra.
  Qed.

  (** Progress after islands below [m]. *)
  Definition prog (m : nat) (B : mat R) : Prop :=
    forall i j, (i < n)%nat -> (j < n)%nat ->
      B i j = if Nat.eqb (lab i) (lab j) && Nat.ltb (lab i) m then ent A i j else A i j.

  Lemma gather_ent m B : (m < n)%nat -> prog m B ->
    let v := vecs m in
    forall a b, (a < length v)%nat -> (b < length v)%nat ->
      gather_island v B a b = A (nth a v 0%nat) (nth b v 0%nat).
  Proof.
    intros Hm HB v a b Ha Hb. unfold v in *. rewrite Hvecs in * by assumption.
    destruct (v_nth n lab m a Ha) as (Ha1 & Ha2). destruct (v_nth n lab m b Hb) as (Hb1 & Hb2).
    unfold gather_island. rewrite HB by assumption. rewrite Ha2, Hb2, Nat.eqb_refl, Nat.ltb_irrefl. reflexivity.
  Qed.

  Lemma sch_ext_n (P Q : mat R) len : (forall a b, (a < len)%nat -> (b < len)%nat -> P a b = Q a b) ->
    forall k a b, (k <= len)%nat -> (a < len)%nat -> (b < len)%nat -> sch P k a b = sch Q k a b.
  Proof.
    intros HPQ. induction k as [|k IH]; intros a b Hk Ha Hb; cbn [sch]; [auto|].
    rewrite !IH by lia. reflexivity.
  Qed.

  Lemma island_ent m B : (m < n)%nat -> prog m B ->
    let v := vecs m in
    forall a b, (a < length v)%nat -> (b < length v)%nat ->
      ent (gather_island v B) a b = ent A (nth a v 0%nat) (nth b v 0%nat).
  Proof.
    intros Hm HB. cbv zeta. pose proof (gather_ent m B Hm HB) as HG. cbv zeta in HG.
    rewrite Hvecs in * by assumption.
    set (v := filter (fun i => Nat.eqb (lab i) m) (seq 0 n)) in *.
    assert (Hsch : forall k a b, (k < length v)%nat -> (a < length v)%nat -> (b < length v)%nat ->
       sch (gather_island v B) k a b = sch A (nth k v 0%nat) (nth a v 0%nat) (nth b v 0%nat)).
    { intros k a b Hk Ha Hb.
      rewrite (sch_ext_n _ (fun a b => A (nth a v 0%nat) (nth b v 0%nat)) (length v) HG) by lia.
      apply (sch_gather n A lab Hzero m); assumption. }
    intros a b Ha Hb. unfold ent.
    destruct (Nat.eqb_spec a b) as [->|Hne]; [rewrite Nat.eqb_refl; now apply Hsch|].
    destruct (Nat.eqb_spec (nth a v 0%nat) (nth b v 0%nat)) as [E|_].
    { exfalso. apply Hne. apply (increasing_nth_inj v); auto. apply increasing_filter_seq. }
    assert (Hi : increasing v) by apply increasing_filter_seq.
    destruct (Nat.lt_ge_cases a b) as [H|H].
    - pose proof (increasing_nth v Hi a b H Hb). rewrite !Nat.max_r, !Nat.min_l by lia.
      rewrite !Hsch by assumption. reflexivity.
    - pose proof (increasing_nth v Hi b a ltac:(lia) Ha). rewrite !Nat.max_l, !Nat.min_r by lia.
      rewrite !Hsch by assumption. reflexivity.
  Qed.

  Lemma scatter_prog m B G' : (m < n)%nat -> prog m B ->
    (forall a b, (a < length (vecs m))%nat -> (b < length (vecs m))%nat ->
       G' a b = ent A (nth a (vecs m) 0%nat) (nth b (vecs m) 0%nat)) ->
    prog (S m) (scatter_island (vecs m) G' B).
  Proof.
    intros Hm HB HG'. rewrite Hvecs in * by assumption.
    set (v := filter (fun i => Nat.eqb (lab i) m) (seq 0 n)) in *.
    destruct (scatter_spec v G' B (increasing_filter_seq _ _)) as (S1 & S2).
    assert (Hin : forall i, In i v <-> (i < n)%nat /\ lab i = m).
    { intros i. unfold v. rewrite filter_In, in_seq, Nat.eqb_eq. split; intros [? ?]; split; auto; lia. }
    intros i j Hi Hj.
    destruct (Nat.eq_dec (lab i) m) as [Ei|Ei]; [destruct (Nat.eq_dec (lab j) m) as [Ej|Ej]|].
    - rewrite Ei, Ej, Nat.eqb_refl. destruct (Nat.ltb_spec m (S m)); [|lia]. cbn.
      assert (Hiv : In i v) by now apply Hin. assert (Hjv : In j v) by now apply Hin.
      apply In_nth with (d := 0%nat) in Hiv. destruct Hiv as (a & Ha & <-).
      apply In_nth with (d := 0%nat) in Hjv. destruct Hjv as (b & Hb & <-).
      rewrite S1 by assumption. now apply HG'.
    - rewrite S2 by (rewrite !Hin; intros [_ [_ ?]]; lia). rewrite HB by assumption.
      destruct (Nat.eqb_spec (lab i) (lab j)); [lia|reflexivity].
    - rewrite S2 by (rewrite !Hin; intros [[_ ?] _]; lia). rewrite HB by assumption.
      destruct (Nat.ltb_spec (lab i) m), (Nat.ltb_spec (lab i) (S m)); try lia; reflexivity.
  Qed.

  Lemma prog_vacuous m B : (m < n)%nat -> length (vecs m) = 0%nat -> prog m B -> prog (S m) B.
  Proof.
    intros Hm Hl HB i j Hi Hj. rewrite HB by assumption.
    assert (lab i <> m).
    { intros E. rewrite Hvecs in Hl by assumption.
      assert (Hin : In i (filter (fun i => Nat.eqb (lab i) m) (seq 0 n))).
      { apply filter_In. rewrite in_seq, Nat.eqb_eq. split; [lia|exact E]. }
      destruct (filter _ _); [contradiction|discriminate]. }
    destruct (Nat.ltb_spec (lab i) m), (Nat.ltb_spec (lab i) (S m)); try lia; reflexivity.
  Qed.

  (** Full behaviour of the island decomposition. *)
  Lemma decompose_islands_spec :
    match decompose_islands n vecs A with
    | inl B => forall i j, (i < n)%nat -> (j < n)%nat -> B i j = ent A i j
    | inr (island, row, _) =>
        exists i, (1 <= i < n)%nat /\ i = nth row (vecs island) 0%nat /\ ent A i i <= 0
    end.
  Proof.
    pose proof (loopE_inv (fun m B => (m <= n)%nat -> prog m B)
      (fun e : nat * nat * mat R => let '(island, row, _) := e in
        exists i, (1 <= i < n)%nat /\ i = nth row (vecs island) 0%nat /\ ent A i i <= 0)
      (island_pass vecs) n 0%nat A) as HL.
    unfold decompose_islands.
    assert (HL' := HL). clear HL.
    enough (Hm : match loopE (island_pass vecs) 0 n A with
      | inl s' => (0 + n <= n)%nat -> prog (0 + n) s'
      | inr e => (fun e : nat * nat * mat R => let '(island, row, _) := e in
        exists i, (1 <= i < n)%nat /\ i = nth row (vecs island) 0%nat /\ ent A i i <= 0) e end).
    { destruct (loopE (island_pass vecs) 0 n A) as [B|[[island row] B]]; [|exact Hm].
      intros i j Hi Hj. rewrite (Hm ltac:(lia)) by assumption.
      destruct (Nat.eqb_spec (lab i) (lab j)) as [E|E]; cbn [andb].
      - destruct (Nat.ltb_spec (lab i) (0 + n)); [reflexivity|]. pose proof (Hlab i Hi). lia.
      - rewrite (Hzero i j) by assumption. now rewrite ent_cross. }
    apply HL'; clear HL'.
    - intros _ i j Hi Hj. destruct (Nat.ltb_spec (lab i) 0); [lia|]. now rewrite andb_false_r.
    - intros m B Hm IH. specialize (IH ltac:(lia)). unfold island_pass. cbv zeta.
      destruct (Nat.ltb_spec 0 (length (vecs m))) as [Hpos|Hz].
      2: { intros _. apply prog_vacuous; [lia|lia|exact IH]. }
      pose proof (island_ent m B ltac:(lia) IH) as HE. cbv zeta in HE.
      destruct (Nat.ltb_spec 1 (length (vecs m))) as [H1|H1].
      + pose proof (decompose_ent (length (vecs m)) (gather_island (vecs m) B) ltac:(lia)) as HD.
        destruct (decompose (length (vecs m)) (gather_island (vecs m) B)) as [G'|[row G']].
        * intros _. destruct HD as (HD & _). apply scatter_prog; [lia|exact IH|].
          intros a b Ha Hb. rewrite HD by assumption. now apply HE.
        * destruct HD as (Hr & Hle & _). exists (nth row (vecs m) 0%nat).
          rewrite HE in Hle by lia.
          split; [|split; [reflexivity|exact Hle]].
          rewrite Hvecs in * by lia. destruct (v_nth n lab m row ltac:(lia)) as (Hb & _).
          pose proof (increasing_nth _ (increasing_filter_seq (fun i => Nat.eqb (lab i) m) n) 0 row ltac:(lia) ltac:(lia)). lia.
      + intros _. apply scatter_prog; [lia|exact IH|].
        intros a b Ha Hb. replace a with 0%nat in * by lia. replace b with 0%nat in * by lia.
        rewrite <- HE by lia. unfold ent. rewrite Nat.eqb_refl. reflexivity.
  Qed.
End Whole.

(** The whole pipeline: labels from the matrix, vectors from the labels. *)
Theorem islands_same_as_whole n (A : mat R) lab0 v0 M :
  (1 <= n)%nat ->
  (forall i j, (i < n)%nat -> (j < n)%nat -> A i j = 0 -> A j i = 0) ->
  decompose n A = inl M ->
  exists M', decompose_islands n (island_vectors n (island_labels n (nonzero A) lab0) v0) A = inl M' /\
    forall i j, (i < n)%nat -> (j < n)%nat -> M' i j = M i j.
Proof.
  intros Hn Hsym HM.
  set (lab := island_labels n (nonzero A) lab0).
  assert (Hlab : forall i, (i < n)%nat -> (lab i < n)%nat) by (intros i Hi; now apply island_labels_min).
  assert (Hz : forall i j, (i < n)%nat -> (j < n)%nat -> lab i <> lab j -> A i j = 0).
  { assert (Hup : forall i j, (i < j)%nat -> (j < n)%nat -> lab i <> lab j -> A i j = 0).
    { intros i j Hij Hj Hl. destruct (Req_dec (A i j) 0) as [E|E]; [exact E|]. exfalso. apply Hl.
      apply island_labels_components; [lia|lia|]. eapply conn_step; [left|apply conn_refl].
      split; [exact Hij|]. split; [exact Hj|]. unfold nonzero. rnum.
      destruct (Reqb_spec (A i j) 0); [contradiction|reflexivity]. }
    intros i j Hi Hj Hl. destruct (lt_eq_lt_dec i j) as [[H|H]|H]; [now apply Hup|congruence|].
    apply Hsym; auto. }
  assert (Hv : forall k, (k < n)%nat ->
     island_vectors n lab v0 k = filter (fun i => Nat.eqb (lab i) k) (seq 0 n))
    by (intros k Hk; now apply island_vectors_spec).
  pose proof (decompose_islands_spec n A lab (island_vectors n lab v0) Hn Hlab Hv Hz) as HS.
  pose proof (decompose_ent n A Hn) as HD. rewrite HM in HD. destruct HD as (HD1 & HD2).
  destruct (decompose_islands n (island_vectors n lab v0) A) as [M'|[[island row] M']].
  - exists M'. split; [reflexivity|]. intros i j Hi Hj. rewrite HS, HD1 by assumption. reflexivity.
  - exfalso. destruct HS as (i & Hi & _ & Hle). pose proof (HD2 i Hi). lra.
Qed.

(** Conversely, islands that decompose to positive pivots decompose as a whole. *)
Theorem whole_same_as_islands n (A : mat R) lab0 v0 M' :
  (1 <= n)%nat ->
  (forall i j, (i < n)%nat -> (j < n)%nat -> A i j = 0 -> A j i = 0) ->
  decompose_islands n (island_vectors n (island_labels n (nonzero A) lab0) v0) A = inl M' ->
  (forall k, (1 <= k < n)%nat -> 0 < M' k k) ->
  exists M, decompose n A = inl M /\ forall i j, (i < n)%nat -> (j < n)%nat -> M i j = M' i j.
Proof.
  intros Hn Hsym HM Hpos.
  set (lab := island_labels n (nonzero A) lab0) in *.
  assert (Hlab : forall i, (i < n)%nat -> (lab i < n)%nat) by (intros i Hi; now apply island_labels_min).
  assert (Hz : forall i j, (i < n)%nat -> (j < n)%nat -> lab i <> lab j -> A i j = 0).
  { assert (Hup : forall i j, (i < j)%nat -> (j < n)%nat -> lab i <> lab j -> A i j = 0).
    { intros i j Hij Hj Hl. destruct (Req_dec (A i j) 0) as [E|E]; [exact E|]. exfalso. apply Hl.
      apply island_labels_components; [lia|lia|]. eapply conn_step; [left|apply conn_refl].
      split; [exact Hij|]. split; [exact Hj|]. unfold nonzero. rnum.
      destruct (Reqb_spec (A i j) 0); [contradiction|reflexivity]. }
    intros i j Hi Hj Hl. destruct (lt_eq_lt_dec i j) as [[H|H]|H]; [now apply Hup|congruence|].
    apply Hsym; auto. }
  assert (Hv : forall k, (k < n)%nat ->
     island_vectors n lab v0 k = filter (fun i => Nat.eqb (lab i) k) (seq 0 n))
    by (intros k Hk; now apply island_vectors_spec).
  pose proof (decompose_islands_spec n A lab (island_vectors n lab v0) Hn Hlab Hv Hz) as HS.
  rewrite HM in HS.
  pose proof (decompose_ent n A Hn) as HD. destruct (decompose n A) as [M|[r M]].
  - destruct HD as (HD & _). exists M. split; [reflexivity|]. intros i j Hi Hj. rewrite HS, HD by assumption. reflexivity.
  - exfalso. destruct HD as (Hr & Hle & _). rewrite <- HS in Hle by lia. pose proof (Hpos r Hr). lra.
Qed.
