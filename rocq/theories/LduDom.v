(** Strictly diagonally dominant conductance matrices always decompose (C03),
    and the counterexample for positive off-diagonals (C04). *)
From Coq Require Import Reals Lra Lia List Arith Bool ZArith Psatz.
From Verif Require Import Num Loops Ldu Spec_Ldu LduFacts.
Local Open Scope R_scope.

(** Right-looking elimination with the same flush and drop rules: entry (r,c),
    r >= c >= k, after eliminating the first [k] columns. *)
Fixpoint sch (A : mat R) (k : nat) (r c : nat) : R :=
  match k with
  | O => A r c
  | S k =>
      sch A k r c -
      (let ur := flushR (sch A k r k) in
       let lc := flushR (sch A k c k) / sch A k k k in
       if Nat.eqb r c then ur * lc else keepR ur lc)
  end.

Lemma sch_off A k r c : r <> c ->
  sch A k r c = A r c - rsum k (fun m => keepR (flushR (sch A m r m)) (flushR (sch A m c m) / sch A m m m)).
Proof.
  intros Hrc. induction k as [|k IH]; cbn [sch rsum]; [lra|].
  destruct (Nat.eqb_spec r c); [contradiction|]. rewrite IH. lra.
Qed.
Lemma sch_diag A k r :
  sch A k r r = A r r - rsum k (fun m => flushR (sch A m r m) * (flushR (sch A m r m) / sch A m m m)).
Proof.
  induction k as [|k IH]; cbn [sch rsum]; [lra|].
  rewrite Nat.eqb_refl. rewrite IH. lra.
Qed.

Lemma rows_done_sch A M U m : rows_done A M U m ->
  forall r, (r < m)%nat ->
    (forall j, (j < r)%nat -> U r j = flushR (sch A j r j) /\ M r j = flushR (sch A j r j) / sch A j j j) /\
    M r r = sch A r r r.
Proof.
  intros (Hlow & Hdia & Hout) r. induction r as [r IHr] using lt_wf_ind. intros Hr.
  assert (Hrow : forall j, (j < r)%nat ->
     U r j = flushR (sch A j r j) /\ M r j = flushR (sch A j r j) / sch A j j j).
  { intros j. induction j as [j IHj] using lt_wf_ind. intros Hj.
    destruct (Hlow r j Hj Hr) as (HU & HM & _).
    destruct (IHr j Hj ltac:(lia)) as (Hj1 & Hj2).
    assert (E : U r j = flushR (sch A j r j)).
    { rewrite HU. f_equal. rewrite sch_off by lia. f_equal. apply rsum_ext. intros k Hk.
      destruct (IHj k ltac:(lia) ltac:(lia)) as [E1 _].
      destruct (Hj1 k Hk) as [_ E2]. rewrite E1, E2. reflexivity. }
    split; [exact E|]. rewrite HM, E, Hj2. reflexivity. }
  split; [exact Hrow|].
  rewrite Hdia by assumption. rewrite sch_diag. f_equal. apply rsum_ext.
  intros k Hk. destruct (Hrow k Hk) as [-> ->]. reflexivity.
Qed.

(** Symmetric access to the lower triangle. *)
Definition sym (S : mat R) (r c : nat) : R := S (Nat.max r c) (Nat.min r c).

Lemma sym_le S r c : (c <= r)%nat -> sym S r c = S r c.
Proof. intros H. unfold sym. rewrite Nat.max_l, Nat.min_r by lia. reflexivity. Qed.
Lemma sym_ge S r c : (r <= c)%nat -> sym S r c = S c r.
Proof. intros H. unfold sym. rewrite Nat.max_r, Nat.min_l by lia. reflexivity. Qed.

(** Non-positive off-diagonals and positive row sums of the trailing block. *)
Definition dom (n : nat) (A : mat R) (k : nat) : Prop :=
  (forall r c, (k <= c)%nat -> (c < r)%nat -> (r < n)%nat -> sch A k r c <= 0) /\
  (forall r, (k <= r < n)%nat -> 0 < rsum (n - k) (fun i => sym (sch A k) r (k + i))).

Lemma dom_pivot n A k r : dom n A k -> (k <= r < n)%nat -> 0 < sch A k r r.
Proof.
  intros (Hoff & Hsum) Hr.
  pose proof (Hsum r Hr) as Hs.
  rewrite (rsum_extract (n - k) (r - k)) in Hs by lia.
  replace (k + (r - k))%nat with r in Hs by lia.
  rewrite sym_le in Hs by lia.
  match type of Hs with 0 < _ + ?s => assert (s <= 0) end.
  { clear Hs.
    match goal with |- rsum ?a ?f <= 0 => assert (0 <= - rsum a f) end; [|lra].
    rewrite <- (Rmult_1_l (rsum _ _)). rewrite <- Ropp_mult_distr_l_reverse.
    rewrite <- rsum_scal. apply rsum_nonneg. intros i Hi.
    destruct (Nat.eqb_spec i (r - k)) as [->|Hne]; [lra|].
    destruct (Nat.lt_ge_cases (k + i) r) as [Hlt|Hge].
    - rewrite sym_le by lia. pose proof (Hoff r (k + i)%nat ltac:(lia) ltac:(lia) ltac:(lia)). lra.
    - rewrite sym_ge by lia. pose proof (Hoff (k + i)%nat r ltac:(lia) ltac:(lia) ltac:(lia)). lra. }
  lra.
Qed.

Lemma dom_step n A k : (S k <= n)%nat -> dom n A k -> dom n A (S k).
Proof.
  intros Hk Hd. pose proof (dom_pivot n A k k Hd ltac:(lia)) as Hp.
  destruct Hd as (Hoff & Hsum).
  set (u := fun r => flushR (sch A k r k)).
  set (l := fun r => u r / sch A k k k).
  assert (Hu : forall r, (k < r < n)%nat -> sch A k r k <= u r <= 0).
  { intros r Hr. apply flushR_nonpos. apply Hoff; lia. }
  assert (Hl : forall r, (k < r < n)%nat -> l r <= 0).
  { intros r Hr. unfold l. destruct (Hu r Hr).
    apply Rmult_le_reg_r with (sch A k k k); [exact Hp|].
    unfold Rdiv. rewrite Rmult_assoc, Rinv_l by lra. lra. }
  split.
  - intros r c Hkc Hcr Hr. cbn [sch]. fold (u r). fold (u c). fold (l c).
    destruct (Nat.eqb_spec r c); [lia|].
    pose proof (Hoff r c ltac:(lia) ltac:(lia) ltac:(lia)).
    pose proof (keepR_nonpos (u r) (l c) (proj2 (Hu r ltac:(lia))) (Hl c ltac:(lia))). lra.
  - intros r Hr.
    (* lower bound of every new entry *)
    assert (Hent : forall i, (i < n - S k)%nat ->
      sym (sch A k) r (S k + i) - u r * l (S k + i)%nat <= sym (sch A (S k)) r (S k + i)).
    { intros i Hi. set (c := (S k + i)%nat).
      destruct (lt_eq_lt_dec c r) as [[Hlt|Heq]|Hgt].
      - rewrite !sym_le by lia. cbn [sch]. fold (u r). fold (u c). fold (l c).
        destruct (Nat.eqb_spec r c); [lia|].
        pose proof (keepR_nonpos (u r) (l c) (proj2 (Hu r ltac:(lia))) (Hl c ltac:(lia))). lra.
      - rewrite Heq. rewrite !sym_le by lia. cbn [sch]. rewrite Nat.eqb_refl. fold (u r). fold (l r). lra.
      - rewrite !sym_ge by lia. cbn [sch]. fold (u r). fold (u c). fold (l r).
        destruct (Nat.eqb_spec c r); [lia|].
        pose proof (keepR_nonpos (u c) (l r) (proj2 (Hu c ltac:(lia))) (Hl r ltac:(lia))).
        assert (u c * l r = u r * l c) by (unfold l; field; lra). lra. }
    eapply Rlt_le_trans; [|apply rsum_le; exact Hent].
    rewrite rsum_minus. rewrite rsum_scal.
    (* the old row sum of row r *)
    pose proof (Hsum r ltac:(lia)) as Hr0.
    replace (n - k)%nat with (S (n - S k)) in Hr0 by lia. rewrite rsum_S_left in Hr0.
    rewrite Nat.add_0_r in Hr0. rewrite (sym_le _ r k) in Hr0 by lia.
    assert (E1 : rsum (n - S k) (fun i => sym (sch A k) r (k + S i))
               = rsum (n - S k) (fun i => sym (sch A k) r (S k + i))).
    { apply rsum_ext. intros i Hi. replace (k + S i)%nat with (S k + i)%nat by lia. reflexivity. }
    rewrite E1 in Hr0. clear E1.
    (* the row sum of the pivot row bounds the sum of the multipliers *)
    pose proof (Hsum k ltac:(lia)) as Hk0.
    replace (n - k)%nat with (S (n - S k)) in Hk0 by lia. rewrite rsum_S_left in Hk0.
    rewrite Nat.add_0_r in Hk0. rewrite (sym_le _ k k) in Hk0 by lia.
    assert (E2 : -1 < rsum (n - S k) (fun i => l (S k + i)%nat)).
    { assert (E3 : rsum (n - S k) (fun i => sym (sch A k) k (k + S i)) / sch A k k k
                   <= rsum (n - S k) (fun i => l (S k + i)%nat)).
      { unfold Rdiv. rewrite <- rsum_scal_r. apply rsum_le. intros i Hi.
        rewrite sym_ge by lia. replace (k + S i)%nat with (S k + i)%nat by lia.
        unfold l, Rdiv. apply Rmult_le_compat_r.
        - apply Rlt_le. now apply Rinv_0_lt_compat.
        - apply Hu. lia. }
      eapply Rlt_le_trans; [|exact E3].
      apply Rmult_lt_reg_r with (sch A k k k); [exact Hp|].
      unfold Rdiv. rewrite Rmult_assoc, Rinv_l by lra. lra. }
    destruct (Hu r ltac:(lia)) as [Hu1 Hu2].
    set (X := rsum (n - S k) (fun i => sym (sch A k) r (S k + i))) in *.
    set (Y := rsum (n - S k) (fun i => l (S k + i)%nat)) in *.
    assert (u r <= - (u r * Y)) by nra. lra.
Qed.


Lemma strictly_dominant_dom n A : strictly_dominant n A -> dom n A 0.
Proof.
  intros (Hs & Hoff & Hd). split.
  - intros r c _ Hcr Hr. cbn. apply Hoff; lia.
  - intros r Hr. rewrite Nat.sub_0_r. cbn [sch].
    rewrite (rsum_extract n r) by lia. rewrite Nat.add_0_l. rewrite sym_le by lia.
    pose proof (Hd r ltac:(lia)) as Hdr.
    enough (E : - rsum n (fun j => if Nat.eqb j r then 0 else Rabs (A r j))
              = rsum n (fun i => if Nat.eqb i r then 0 else sym (fun r0 c => A r0 c) r (0 + i))) by lra.
    rewrite <- (Rmult_1_l (rsum n (fun j => if Nat.eqb j r then 0 else Rabs (A r j)))).
    rewrite <- Ropp_mult_distr_l_reverse. rewrite <- rsum_scal.
    apply rsum_ext. intros i Hi. destruct (Nat.eqb_spec i r); [lra|].
    rewrite Nat.add_0_l.
    assert (sym (fun r0 c => A r0 c) r i = A r i) as ->.
    { destruct (Nat.le_ge_cases i r); [rewrite sym_le by lia; reflexivity|].
      rewrite sym_ge by lia. apply Hs; lia. }
    rewrite Rabs_left1 by (apply Hoff; lia). lra.
Qed.

Theorem decompose_dominant_succeeds n A :
  (1 <= n)%nat -> strictly_dominant n A ->
  exists M, decompose n A = inl M /\ forall k, (k < n)%nat -> 0 < M k k.
Proof.
  intros Hn HA. pose proof (strictly_dominant_dom n A HA) as H0.
  assert (Hdom : forall k, (k <= n)%nat -> dom n A k).
  { induction k as [|k IH]; intros Hk; [assumption|]. apply dom_step; [lia|]. apply IH. lia. }
  assert (Hpv : forall k, (k < n)%nat -> 0 < sch A k k k).
  { intros k Hk. apply (dom_pivot n); [apply Hdom; lia | lia]. }
  pose proof (decompose_spec n A Hn) as HS.
  destruct (decompose n A) as [M|[r M]].
  - exists M. split; [reflexivity|]. intros k Hk. destruct HS as (U & HR & _).
    destruct (rows_done_sch A M U n HR k Hk) as [_ E]. rewrite E. now apply Hpv.
  - exfalso. destruct HS as (Hr & Hle & U & HR & _).
    destruct (rows_done_sch A M U (S r) HR r ltac:(lia)) as [_ E].
    pose proof (Hpv r ltac:(lia)). lra.
Qed.


(** 2 on the diagonal, 1 elsewhere. *)
Definition ones2 : mat R := fun i j => if Nat.eqb i j then 2 else 1.

Lemma ones2_spd : spd 3 ones2.
Proof.
  split.
  - intros i j _ _. unfold ones2. rewrite Nat.eqb_sym. reflexivity.
  - intros x (i & Hi & Hx). unfold mat_vec, ones2. cbn.
    assert (Hsq : 0 < x 0%nat * x 0%nat + x 1%nat * x 1%nat + x 2%nat * x 2%nat).
    { assert (Hpos : 0 < x i * x i) by nra.
      pose proof (Rle_0_sqr (x 0%nat)). pose proof (Rle_0_sqr (x 1%nat)). pose proof (Rle_0_sqr (x 2%nat)).
      unfold Rsqr in *.
      destruct i as [|[|[|i]]]; try lia; lra. }
    pose proof (Rle_0_sqr (x 0%nat + x 1%nat + x 2%nat)) as Hs. unfold Rsqr in Hs. nra.
Qed.

Lemma tiny_lt_1 : tiny < 1.
Proof.
  unfold tiny. rewrite <- Rinv_1. apply Rinv_lt_contravar; [|apply IZR_lt; reflexivity].
  rewrite Rmult_1_l. apply IZR_lt. reflexivity.
Qed.

Lemma decompose_spd_wrong :
  spd 3 ones2 /\ exists M, decompose 3 ones2 = inl M /\ ldu_product 3 M 2 1 <> ones2 2%nat 1%nat.
Proof.
  split; [apply ones2_spd|].
  pose proof (decompose_spec 3 ones2 ltac:(lia)) as HS.
  pose proof tiny_pos as Ht. pose proof tiny_lt_1 as Ht1.
  assert (Hfl : flushR 1 = 1).
  { unfold flushR. rewrite (Rltb_false 1 tiny) by lra. now rewrite andb_false_r. }
  assert (Hk : forall y, keepR 1 y = 0).
  { intros y. unfold keepR. rewrite (Rltb_false 1 (- tiny)) by lra. reflexivity. }
  assert (Hrows : forall M U m, (m <= 3)%nat -> rows_done ones2 M U m ->
    M 0%nat 0%nat = 2 \/ (m < 1)%nat) by
    (intros M U m Hm (_ & Hd & _); destruct m; [right; lia | left; rewrite Hd by lia; cbn; unfold ones2; cbn; lra]).
  destruct (decompose 3 ones2) as [M|[r M]].
  - exists M. split; [reflexivity|].
    destruct HS as (U & (Hlow & Hdia & Hout) & Hpos).
    assert (M00 : M 0%nat 0%nat = 2) by (rewrite Hdia by lia; cbn; unfold ones2; cbn; lra).
    destruct (Hlow 1%nat 0%nat ltac:(lia) ltac:(lia)) as (E1 & E2 & E3).
    cbn in E1. change (ones2 1%nat 0%nat) with 1 in E1. rewrite Rminus_0_r, Hfl in E1.
    destruct (Hlow 2%nat 0%nat ltac:(lia) ltac:(lia)) as (F1 & F2 & F3).
    cbn in F1. change (ones2 2%nat 0%nat) with 1 in F1. rewrite Rminus_0_r, Hfl in F1.
    destruct (Hlow 2%nat 1%nat ltac:(lia) ltac:(lia)) as (G1 & G2 & G3).
    cbn in G1. rewrite F1, Hk in G1. change (ones2 2%nat 1%nat) with 1 in G1.
    replace (1 - (0 + 0)) with 1 in G1 by lra. rewrite Hfl in G1.
    rewrite ldu_product_lower by lia. cbn [rsum]. rewrite unitL_lt by lia.
    pose proof (Hpos 1%nat ltac:(lia)) as Hp1.
    rewrite G2, G1. rewrite E3, F2, E2, E1, F1, M00.
    change (ones2 2%nat 1%nat) with 1.
    replace (1 / M 1%nat 1%nat * M 1%nat 1%nat) with 1 by (field; lra). lra.
  - exfalso. destruct HS as (Hr & Hle & U & (Hlow & Hdia & Hout) & Hpos).
    assert (M00 : M 0%nat 0%nat = 2) by (rewrite Hdia by lia; cbn; unfold ones2; cbn; lra).
    destruct (Hlow 1%nat 0%nat ltac:(lia) ltac:(lia)) as (E1 & E2 & E3).
    cbn in E1. change (ones2 1%nat 0%nat) with 1 in E1. rewrite Rminus_0_r, Hfl in E1.
    assert (M11 : M 1%nat 1%nat = 3 / 2).
    { rewrite Hdia by lia. cbn. rewrite E2, E1, M00. unfold ones2. cbn. lra. }
    destruct r as [|[|[|r]]]; try lia.
    + rewrite M11 in Hle. lra.
    + destruct (Hlow 2%nat 0%nat ltac:(lia) ltac:(lia)) as (F1 & F2 & F3).
      cbn in F1. change (ones2 2%nat 0%nat) with 1 in F1. rewrite Rminus_0_r, Hfl in F1.
      destruct (Hlow 2%nat 1%nat ltac:(lia) ltac:(lia)) as (G1 & G2 & G3).
      cbn in G1. rewrite F1, Hk in G1. change (ones2 2%nat 1%nat) with 1 in G1.
      replace (1 - (0 + 0)) with 1 in G1 by lra. rewrite Hfl in G1.
      assert (M 2%nat 2%nat = 5 / 6).
      { rewrite Hdia by lia. cbn. rewrite G2, F2, G1, F1, M00, M11. unfold ones2. cbn. lra. }
      lra.
Qed.

(** ** C01 for conductance matrices, in terms of the input only *)

Lemma dom_all n A : strictly_dominant n A -> forall k, (k <= n)%nat -> dom n A k.
Proof.
  intros HA. pose proof (strictly_dominant_dom n A HA) as H0.
  induction k as [|k IH]; intros Hk; [assumption|]. apply dom_step; [lia|]. apply IH. lia.
Qed.

Lemma dom_entry n A k r : dom n A k -> (k < r < n)%nat -> - sch A k k k < sch A k r k.
Proof.
  intros Hd Hr. destruct Hd as (Hoff & Hsum).
  pose proof (Hsum k ltac:(lia)) as Hs.
  rewrite (rsum_extract (n - k) 0) in Hs by lia. rewrite Nat.add_0_r in Hs. rewrite sym_le in Hs by lia.
  rewrite (rsum_extract (n - k) (r - k)) in Hs by lia.
  destruct (Nat.eqb_spec (r - k) 0); [lia|].
  replace (k + (r - k))%nat with r in Hs by lia. rewrite sym_ge in Hs by lia.
  match type of Hs with 0 < _ + (_ + ?s) => assert (s <= 0) end; [|lra].
  clear Hs.
  match goal with |- rsum ?a ?f <= 0 => assert (Hz : rsum a f <= rsum a (fun _ => 0)) end.
  { apply rsum_le. intros i Hi.
    destruct (Nat.eqb_spec i (r - k)); [lra|]. destruct (Nat.eqb_spec i 0); [lra|].
    rewrite sym_ge by lia. apply Hoff; lia. }
  rewrite (rsum_zero (n - k) (fun _ => 0)) in Hz by reflexivity. exact Hz.
Qed.

Lemma decompose_dominant_bounds n A M :
  (1 <= n)%nat -> strictly_dominant n A -> decompose n A = inl M ->
  (forall k, (k < n)%nat -> 0 < M k k <= A k k) /\
  (forall i k, (k < i)%nat -> (i < n)%nat -> -1 <= M i k <= 0).
Proof.
  intros Hn HA Hd. pose proof (dom_all n A HA) as Hdom.
  pose proof (decompose_spec n A Hn) as HS. rewrite Hd in HS. destruct HS as (U & HR & Hpos).
  pose proof (rows_done_sch A M U n HR) as Hsch.
  assert (Hp : forall k, (k < n)%nat -> 0 < sch A k k k)
    by (intros k Hk; apply (dom_pivot n); [apply Hdom; lia|lia]).
  assert (Hl : forall i k, (k < i)%nat -> (i < n)%nat -> -1 <= M i k <= 0 /\ U i k <= 0).
  { intros i k Hki Hi. destruct (Hsch i Hi) as (Hrow & _). destruct (Hrow k Hki) as (EU & EM).
    pose proof (dom_entry n A k i (Hdom k ltac:(lia)) ltac:(lia)) as He.
    pose proof (Hp k ltac:(lia)) as Hpk.
    destruct (Hdom k ltac:(lia)) as (Hoff & _).
    destruct (flushR_nonpos (sch A k i k) (Hoff i k ltac:(lia) Hki Hi)) as (Hf1 & Hf2).
    rewrite EM, EU. split; [|lra].
    assert (E : flushR (sch A k i k) = flushR (sch A k i k) / sch A k k k * sch A k k k) by (field; lra).
    split; apply Rmult_le_reg_r with (sch A k k k); try exact Hpk; rewrite <- E; lra. }
  split.
  - intros k Hk. destruct HR as (Hlow & Hdia & _). split.
    + destruct (Hsch k Hk) as (_ & ->). now apply Hp.
    + rewrite Hdia by assumption.
      assert (0 <= rsum k (fun m => U k m * M k m)); [|lra].
      apply rsum_nonneg. intros m Hm. destruct (Hl k m Hm Hk) as (? & ?). nra.
  - intros i k Hki Hi. now apply Hl.
Qed.

Theorem decompose_dominant_close n A M :
  (1 <= n)%nat -> strictly_dominant n A -> decompose n A = inl M ->
  forall i j, (i < n)%nat -> (j < n)%nat ->
    Rabs (ldu_product n M i j - A i j) <= tiny * (1 + rsum n (fun k => A k k + 1)).
Proof.
  intros Hn HA Hd.
  destruct (decompose_dominant_bounds n A M Hn HA Hd) as (Hp & Hl).
  assert (H00 : 0 < A 0%nat 0%nat) by (pose proof (Hp 0%nat ltac:(lia)); lra).
  assert (Hlow : forall i j, (j <= i)%nat -> (i < n)%nat ->
    Rabs (ldu_product n M i j - A i j) <= tiny * (1 + rsum n (fun k => A k k + 1)) /\
    ldu_product n M j i = ldu_product n M i j).
  { intros i j Hji Hi.
    destruct (decompose_product_close n A M Hn H00 ltac:(intros; apply HA; lia) Hd i j Hji Hi) as (_ & Hc & Hs).
    split; [|exact Hs]. eapply Rle_trans; [exact Hc|].
    apply Rmult_le_compat_l; [apply Rlt_le, tiny_pos|]. apply Rplus_le_compat_l.
    replace n with (j + (n - j))%nat by lia. rewrite rsum_split.
    assert (0 <= rsum (n - j) (fun i0 => A (j + i0)%nat (j + i0)%nat + 1)).
    { apply rsum_nonneg. intros k Hk. pose proof (Hp (j + k)%nat ltac:(lia)). lra. }
    match goal with |- ?a <= ?b + _ => assert (a <= b) end; [|lra].
    apply rsum_le. intros k Hk.
    pose proof (Hl i k ltac:(lia) Hi). pose proof (Hl j k Hk ltac:(lia)). pose proof (Hp k ltac:(lia)).
    rewrite (Rabs_left1 (M i k)), (Rabs_left1 (M j k)) by lra. nra. }
  intros i j Hi Hj. destruct (Nat.le_ge_cases j i) as [H|H].
  - now apply Hlow.
  - destruct (Hlow j i H Hj) as (Hc & Hs). rewrite Hs.
    destruct HA as (Hsym & _). rewrite (Hsym i j Hi Hj). exact Hc.
Qed.

(** Decompose then solve: the residual in terms of the input matrix. *)
Theorem decompose_solve_residual n A B x :
  (1 <= n)%nat -> strictly_dominant n A ->
  exists M y, decompose n A = inl M /\ solve M B x n = inl y /\
    forall i, (i < n)%nat ->
      Rabs (mat_vec n A y i - B i)
        <= tiny * (1 + rsum n (fun k => A k k + 1)) * rsum n (fun c => Rabs (y c)).
Proof.
  intros Hn HA. destruct (decompose_dominant_succeeds n A Hn HA) as (M & HM & Hpos).
  destruct (solve_correct n M B x Hn) as (y & Hy & Hres & _).
  { intros k Hk. pose proof (Hpos k Hk). lra. }
  exists M, y. split; [exact HM|]. split; [exact Hy|]. intros i Hi.
  rewrite <- (Hres i Hi). unfold mat_vec. rewrite <- rsum_minus.
  eapply Rle_trans; [apply rsum_abs|]. rewrite <- rsum_scal. apply rsum_le. intros c Hc.
  replace (A i c * y c - ldu_product n M i c * y c) with (- (ldu_product n M i c - A i c) * y c) by ring.
  rewrite Rabs_mult, Rabs_Ropp. apply Rmult_le_compat_r; [apply Rabs_pos|].
  now apply (decompose_dominant_close n A M Hn HA HM).
Qed.
