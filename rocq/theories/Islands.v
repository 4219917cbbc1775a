(** Gunns: island search, island vectors and decomposition by islands.
    Source: /repo/core/Gunns.cpp. *)
From Coq Require Import Lia List Arith Bool ZArith.
From Verif Require Import Num Loops Ldu Spec_Islands.
Import ListNotations.

Definition labels := nat -> nat.
Definition setl (lab : labels) (i v : nat) : labels := fun a => if Nat.eqb a i then v else lab a.

(** Gunns.cpp:1328-1335. *)
Definition merge (n from to : nat) (lab : labels) : labels :=
  if Nat.eqb from to then lab
  else loop (fun node lab => if Nat.eqb from (lab node) then setl lab node to else lab) 0 n lab.

(** Gunns.cpp:1282-1288: lowest island number in the column. *)
Definition col_min (nz : nat -> nat -> bool) (row col : nat) (lab : labels) : nat :=
  let m0 := lab col in
  let m1 := if Nat.ltb (lab row) m0 then lab row else m0 in
  loop (fun row2 m => if nz row2 col && Nat.ltb (lab row2) m then lab row2 else m)
       (row + 1) (col - (row + 1)) m1.

(** Gunns.cpp:1278-1299: body for one matrix entry; [nz r c] is
    [mAdmittanceMatrix[r*n+c] != 0.0]. *)
Definition scan (n : nat) (nz : nat -> nat -> bool) (row col : nat) (lab : labels) : labels :=
  if nz row col then
    let m := col_min nz row col lab in
    let lab1 := loop (fun row2 lab => if nz row2 col then merge n (lab row2) m lab else lab)
                     (row + 1) (col - (row + 1)) lab in
    let lab2 := merge n (lab1 row) m lab1 in
    merge n (lab2 col) m lab2
  else lab.

(** Gunns.cpp:1271-1302. *)
Definition island_labels (n : nat) (nz : nat -> nat -> bool) (lab0 : labels) : labels :=
  loop (fun row lab => loop (scan n nz row) (row + 1) (n - (row + 1)) lab) 0 (n - 1)
       (loop (fun node lab => setl lab node node) 0 n lab0).

(** Gunns.cpp:1305-1311: island vectors. *)
Definition setv (v : nat -> list nat) (i : nat) (x : list nat) : nat -> list nat :=
  fun a => if Nat.eqb a i then x else v a.
Definition island_vectors (n : nat) (lab : labels) (v0 : nat -> list nat) : nat -> list nat :=
  loop (fun node v => setv v (lab node) (v (lab node) ++ [node])) 0 n
       (loop (fun k v => setv v k []) 0 n v0).

(** Gunns.cpp:1314-1320: (mIslandMaxSize, mIslandCount). *)
Definition island_metrics (n : nat) (v : nat -> list nat) : nat * nat :=
  loop (fun k (s : nat * nat) =>
          let size := length (v k) in
          let cnt := if Nat.ltb 0 size then snd s + 1 else snd s in
          let mx := if Nat.ltb (fst s) size then size else fst s in
          (mx, cnt)) 0 n (0, 0).

(** ** Labels are components *)

Section Proof.
  Variable n : nat.
  Variable nz : nat -> nat -> bool.
  Let conn := connected (upper_edge n nz).

  Lemma conn_trans i j k : conn i j -> conn j k -> conn i k.
  Proof. induction 1; auto. intros. eapply conn_step; eauto. apply IHconnected. assumption. Qed.
  Lemma conn_sym i j : conn i j -> conn j i.
  Proof.
    induction 1 as [|i j k He Hc IH]; [constructor|].
    eapply conn_trans; [exact IH|]. eapply conn_step; [|constructor]. tauto.
  Qed.
  Lemma conn_edge i j : upper_edge n nz i j -> conn i j.
  Proof. intros H. eapply conn_step; [left; exact H|constructor]. Qed.

  Definition sound (lab : labels) : Prop := forall i, i < n -> lab i <= i /\ conn i (lab i).

  Lemma setl_eq lab i v : setl lab i v i = v.
  Proof. unfold setl. now rewrite Nat.eqb_refl. Qed.
  Lemma setl_neq lab i v a : a <> i -> setl lab i v a = lab a.
  Proof. unfold setl. intros H. destruct (Nat.eqb_spec a i); auto; lia. Qed.

  Lemma merge_spec from to lab i :
    merge n from to lab i = if Nat.ltb i n && Nat.eqb (lab i) from then to else lab i.
  Proof.
    unfold merge. destruct (Nat.eqb_spec from to) as [->|Hft].
    - destruct (Nat.ltb i n); cbn; auto. destruct (Nat.eqb_spec (lab i) to); auto.
    - pose proof (loop_inv (fun m (l : labels) => forall i,
        l i = if Nat.ltb i m && Nat.eqb (lab i) from then to else lab i)
        (fun node lab => if Nat.eqb from (lab node) then setl lab node to else lab) n 0 lab) as HL.
      apply HL; clear HL.
      + intros j. cbn. reflexivity.
      + intros m l _ IH j. rewrite (IH m). rewrite Nat.ltb_irrefl. cbn [andb].
        rewrite (Nat.eqb_sym from (lab m)).
        destruct (Nat.eqb_spec (lab m) from) as [E|E].
        * destruct (Nat.eq_dec j m) as [->|Hne].
          -- rewrite setl_eq. destruct (Nat.ltb_spec m (S m)); [|lia]. rewrite E, Nat.eqb_refl. reflexivity.
          -- rewrite setl_neq by assumption. rewrite IH.
             destruct (Nat.ltb_spec j m), (Nat.ltb_spec j (S m)); try lia; reflexivity.
        * rewrite IH. destruct (Nat.ltb_spec j m), (Nat.ltb_spec j (S m)); try lia; try reflexivity.
          assert (j = m) by lia. subst j. cbn. destruct (Nat.eqb_spec (lab m) from); [lia|reflexivity].
  Qed.

  Lemma merge_sound x to lab : sound lab -> x < n -> to <= lab x -> conn x to -> sound (merge n (lab x) to lab).
  Proof.
    intros Hs Hx Hle Hc i Hi. rewrite merge_spec.
    destruct (Nat.ltb_spec i n); [|lia]. cbn.
    destruct (Nat.eqb_spec (lab i) (lab x)) as [E|E]; [|auto].
    destruct (Hs i Hi) as (H1 & H2). destruct (Hs x Hx) as (H3 & H4). split; [lia|].
    apply conn_trans with (lab i); [exact H2|]. rewrite E.
    apply conn_trans with x; [now apply conn_sym|exact Hc].
  Qed.

  Lemma merge_eq from to lab i j : i < n -> j < n -> lab i = lab j ->
    merge n from to lab i = merge n from to lab j.
  Proof.
    intros Hi Hj E. rewrite !merge_spec. destruct (Nat.ltb_spec i n), (Nat.ltb_spec j n); try lia.
    rewrite E. reflexivity.
  Qed.
  Lemma merge_self x to lab : x < n -> merge n (lab x) to lab x = to.
  Proof. intros Hx. rewrite merge_spec. destruct (Nat.ltb_spec x n); [|lia]. now rewrite Nat.eqb_refl. Qed.
  Lemma merge_keep from to lab x : lab x = to -> merge n from to lab x = to.
  Proof. intros E. rewrite merge_spec. destruct (_ && _); auto. Qed.

  Lemma col_min_spec row col lab : row < col -> nz row col = true ->
    let m := col_min nz row col lab in
    m <= lab col /\ m <= lab row /\
    (forall r2, row < r2 < col -> nz r2 col = true -> m <= lab r2) /\
    (exists x, m = lab x /\ (x = col \/ (row <= x < col /\ nz x col = true))).
  Proof.
    intros Hrc Hnz. cbv zeta. unfold col_min.
    set (m1 := if Nat.ltb (lab row) (lab col) then lab row else lab col).
    assert (H0 : m1 <= lab col /\ m1 <= lab row /\
       (exists x, m1 = lab x /\ (x = col \/ (row <= x < col /\ nz x col = true)))).
    { unfold m1. destruct (Nat.ltb_spec (lab row) (lab col)).
      - repeat split; try lia. exists row. split; auto.
      - repeat split; try lia. exists col. auto. }
    pose proof (loop_inv (fun k m => row + 1 <= k -> k <= col ->
      m <= m1 /\ (forall r2, row < r2 < k -> nz r2 col = true -> m <= lab r2) /\
      (exists x, m = lab x /\ (x = col \/ (row <= x < col /\ nz x col = true))))
      (fun row2 m => if nz row2 col && Nat.ltb (lab row2) m then lab row2 else m)
      (col - (row + 1)) (row + 1) m1) as HL.
    destruct HL as (H1 & H2 & H3); try lia.
    - intros _ _. split; [lia|split; [intros; lia|tauto]].
    - intros k m Hk IH _ _. destruct IH as (I1 & I2 & I3); try lia.
      destruct (nz k col) eqn:Ek; cbn [andb].
      + destruct (Nat.ltb_spec (lab k) m).
        * repeat split; [lia| |].
          -- intros r2 Hr2 Hnz2. destruct (Nat.eq_dec r2 k) as [->|]; [lia|].
             pose proof (I2 r2 ltac:(lia) Hnz2). lia.
          -- exists k. split; [reflexivity|]. right. split; [lia|exact Ek].
        * repeat split; [lia| |exact I3].
          intros r2 Hr2 Hnz2. destruct (Nat.eq_dec r2 k) as [->|]; [lia|]. apply I2; [lia|exact Hnz2].
      + repeat split; [lia| |exact I3].
        intros r2 Hr2 Hnz2. destruct (Nat.eq_dec r2 k) as [->|]; [congruence|]. apply I2; [lia|exact Hnz2].
    - repeat split; try lia.
      + intros r2 Hr2 Hnz2. apply H2; [lia|exact Hnz2].
      + exact H3.
  Qed.

  (** A label-preserving relation: pairs already merged stay merged. *)
  Definition merged (P : nat -> nat -> Prop) (lab : labels) : Prop :=
    forall i j, P i j -> i < n -> j < n -> lab i = lab j.

  Lemma scan_spec row col lab P : row < col -> col < n -> sound lab -> merged P lab ->
    let lab' := scan n nz row col lab in
    sound lab' /\ merged P lab' /\ (nz row col = true -> lab' row = lab' col).
  Proof.
    intros Hrc Hcn Hs Hm. cbv zeta. unfold scan.
    destruct (nz row col) eqn:Enz; [|split; [exact Hs|split; [exact Hm|discriminate]]].
    destruct (col_min_spec row col lab Hrc Enz) as (M1 & M2 & M3 & (x & Mx & Hx)).
    set (m := col_min nz row col lab) in *.
    assert (Hxc : conn x col).
    { destruct Hx as [->|[Hx1 Hx2]]; [constructor|]. apply conn_edge. repeat split; [lia|lia|exact Hx2]. }
    assert (Hxn : x < n) by lia.
    assert (Hcm : conn col m).
    { rewrite Mx. apply conn_trans with x; [now apply conn_sym|]. now apply Hs. }
    (* labels never go below m on the participants because m is the least and merges only write m *)
    pose proof (loop_inv (fun k (l : labels) => row + 1 <= k -> k <= col ->
      sound l /\ merged P l /\ (forall y, y < n -> l y = lab y \/ l y = m))
      (fun row2 lab => if nz row2 col then merge n (lab row2) m lab else lab)
      (col - (row + 1)) (row + 1) lab) as HL.
    destruct HL as (S1 & Q1 & V1); try lia.
    - intros _ _. auto.
    - intros k l Hk IH _ _. destruct IH as (S0 & Q0 & V0); try lia.
      destruct (nz k col) eqn:Ek; [|auto].
      assert (Hkc : conn k col) by (apply conn_edge; repeat split; [lia|lia|exact Ek]).
      split; [|split].
      + apply merge_sound; [exact S0|lia| |].
        * destruct (V0 k ltac:(lia)) as [E|E]; rewrite E; [apply M3; [lia|exact Ek]|lia].
        * apply conn_trans with col; auto.
      + intros i j HP Hi Hj. apply merge_eq; auto.
      + intros y Hy. rewrite merge_spec. destruct (_ && _); auto.
    - set (l1 := loop _ (row + 1) (col - (row + 1)) lab) in *.
      assert (Hrc' : conn row col) by (apply conn_edge; repeat split; [lia|lia|exact Enz]).
      assert (S2 : sound (merge n (l1 row) m l1)).
      { apply merge_sound; [exact S1|lia| |].
        - change (m <= l1 row). destruct (V1 row ltac:(lia)) as [E|E]; lia.
        - apply conn_trans with col; auto. }
      assert (V2 : forall y, y < n -> merge n (l1 row) m l1 y = lab y \/ merge n (l1 row) m l1 y = m).
      { intros y Hy. rewrite merge_spec. destruct (_ && _); auto. }
      set (l2 := merge n (l1 row) m l1) in *.
      assert (E2 : l2 row = m) by (apply merge_self; lia).
      split; [|split].
      + apply merge_sound; [exact S2|lia| |exact Hcm].
        change (m <= l2 col). destruct (V2 col ltac:(lia)) as [E|E]; lia.
      + intros i j HP Hi Hj. apply merge_eq; auto. unfold l2. apply merge_eq; auto.
      + intros _. rewrite merge_self by lia. apply merge_keep. exact E2.
  Qed.

  Lemma island_labels_spec lab0 :
    let lab := island_labels n nz lab0 in
    sound lab /\ merged (upper_edge n nz) lab.
  Proof.
    cbv zeta. unfold island_labels.
    set (l0 := loop (fun node lab => setl lab node node) 0 n lab0).
    assert (H0 : sound l0).
    { assert (E : forall i, i < n -> l0 i = i).
      { pose proof (loop_inv (fun m (l : labels) => forall i, i < m -> l i = i)
          (fun node lab => setl lab node node) n 0 lab0) as HL.
        apply HL; [intros; lia|]. intros m l _ IH i Hi.
        destruct (Nat.eq_dec i m) as [->|Hne]; [apply setl_eq|]. rewrite setl_neq by assumption. apply IH. lia. }
      intros i Hi. rewrite E by assumption. split; [lia|constructor]. }
    pose proof (loop_inv (fun r (l : labels) => r <= n - 1 ->
       sound l /\ merged (fun i j => upper_edge n nz i j /\ i < r) l)
      (fun row lab => loop (scan n nz row) (row + 1) (n - (row + 1)) lab) (n - 1) 0 l0) as HL.
    destruct HL as (H1 & H2); [| |lia|].
    - intros _. split; [exact H0|]. intros i j [_ Hi]. lia.
    - intros r l Hr IH Hr1. destruct IH as (S0 & Q0); [lia|].
      pose proof (loop_inv (fun c (l : labels) => r + 1 <= c -> c <= n ->
         sound l /\ merged (fun i j => upper_edge n nz i j /\ (i < r \/ (i = r /\ j < c))) l)
         (scan n nz r) (n - (r + 1)) (r + 1) l) as HC.
      destruct HC as (S1 & Q1); try lia.
      + intros _ _. split; [exact S0|]. intros i j [He Hij]. apply Q0.
        destruct Hij as [H|[H H']]; [auto|]. destruct He. lia.
      + intros c l' Hc IH _ _. destruct IH as (S1 & Q1); try lia.
        destruct (scan_spec r c l' _ ltac:(lia) ltac:(lia) S1 Q1) as (S2 & Q2 & E2).
        split; [exact S2|]. intros i j [He Hij] Hi Hj.
        destruct Hij as [H|[H H']]; [apply Q2; auto|].
        destruct (Nat.eq_dec j c) as [->|Hne]; [|apply Q2; auto; split; auto; right; lia].
        subst i. apply E2. apply He.
      + split; [exact S1|]. intros i j [He Hij] Hi Hj. apply Q1; auto. split; [exact He|].
        destruct (Nat.eq_dec i r); [right; split; [assumption|lia]|left; lia].
    - split; [exact H1|]. intros i j He Hi Hj. apply H2; auto. split; [exact He|].
      destruct He as (? & ? & _). lia.
  Qed.

  Lemma island_labels_components lab0 i j : i < n -> j < n ->
    let lab := island_labels n nz lab0 in
    (lab i = lab j <-> connected (upper_edge n nz) i j).
  Proof.
    intros Hi Hj. cbv zeta. destruct (island_labels_spec lab0) as (Hs & Hm).
    set (lab := island_labels n nz lab0) in *. split.
    - intros E. destruct (Hs i Hi) as (_ & H1). destruct (Hs j Hj) as (_ & H2).
      rewrite E in H1. apply conn_trans with (lab j); [exact H1|now apply conn_sym].
    - intros Hc. revert Hi Hj. induction Hc as [i|i j k He Hc IH]; intros Hi Hk; [reflexivity|].
      assert (Hj : j < n) by (destruct He as [(?&?&_)|(?&?&_)]; lia).
      rewrite <- IH by assumption. destruct He as [He|He]; [|symmetry]; apply Hm; auto.
  Qed.

  Lemma island_labels_min lab0 i : i < n ->
    let lab := island_labels n nz lab0 in
    connected (upper_edge n nz) i (lab i) /\ lab i < n /\
    (forall j, j < n -> connected (upper_edge n nz) i j -> lab i <= j).
  Proof.
    intros Hi. cbv zeta. destruct (island_labels_spec lab0) as (Hs & Hm).
    pose proof (island_labels_components lab0) as HC. cbv zeta in HC.
    set (lab := island_labels n nz lab0) in *.
    destruct (Hs i Hi). repeat split; auto; [lia|].
    intros j Hj Hc. apply HC in Hc; auto. rewrite Hc. now apply Hs.
  Qed.
End Proof.

(** ** Island vectors *)

Lemma setv_eq v i x : setv v i x i = x.
Proof. unfold setv. now rewrite Nat.eqb_refl. Qed.
Lemma setv_neq v i x a : a <> i -> setv v i x a = v a.
Proof. unfold setv. intros H. destruct (Nat.eqb_spec a i); auto; lia. Qed.

Lemma island_vectors_spec n lab v0 k : (forall i, i < n -> lab i < n) -> k < n ->
  island_vectors n lab v0 k = filter (fun i => Nat.eqb (lab i) k) (seq 0 n).
Proof.
  intros Hlab Hk. unfold island_vectors.
  set (v1 := loop (fun k v => setv v k []) 0 n v0).
  assert (H1 : forall k, k < n -> v1 k = []).
  { pose proof (loop_inv (fun m (v : nat -> list nat) => forall k, k < m -> v k = [])
      (fun k v => setv v k []) n 0 v0) as HL.
    apply HL; [intros; lia|]. intros m v _ IH j Hj.
    destruct (Nat.eq_dec j m) as [->|Hne]; [apply setv_eq|]. rewrite setv_neq by assumption. apply IH. lia. }
  pose proof (loop_inv (fun m (v : nat -> list nat) => m <= n -> forall k, k < n ->
     v k = filter (fun i => Nat.eqb (lab i) k) (seq 0 m))
    (fun node v => setv v (lab node) (v (lab node) ++ [node])) n 0 v1) as HL.
  apply HL; clear HL; auto.
  - intros m v Hm IH Hmn j Hj. rewrite seq_S, filter_app. cbn.
    destruct (Nat.eqb_spec (lab m) j) as [E|E].
    + subst j. rewrite setv_eq, IH by lia. reflexivity.
    + rewrite setv_neq by lia. rewrite IH by lia. now rewrite app_nil_r.
Qed.

Lemma increasing_snoc l x : increasing l -> (forall y, In y l -> y < x) -> increasing (l ++ [x]).
Proof.
  induction l as [|a l IH]; intros Hi Hx; cbn; auto.
  destruct Hi as [H1 H2]. split.
  - destruct l as [|b l]; cbn in *; auto.
  - apply IH; auto. intros y Hy. apply Hx. now right.
Qed.

Lemma increasing_filter_seq f n : increasing (filter f (seq 0 n)).
Proof.
  induction n as [|n IH]; [exact I|]. rewrite seq_S, filter_app. cbn.
  destruct (f n); [|now rewrite app_nil_r].
  apply increasing_snoc; auto. intros y Hy. apply filter_In in Hy. destruct Hy as [Hy _].
  apply in_seq in Hy. lia.
Qed.

(** Metrics against a specification by list functions. *)
Lemma island_metrics_spec n v :
  island_metrics n v =
    (list_max (map (fun k => length (v k)) (seq 0 n)),
     length (filter (fun k => Nat.ltb 0 (length (v k))) (seq 0 n))).
Proof.
  unfold island_metrics.
  pose proof (loop_inv (fun m (s : nat * nat) =>
    s = (list_max (map (fun k => length (v k)) (seq 0 m)),
     length (filter (fun k => Nat.ltb 0 (length (v k))) (seq 0 m))))
    (fun k (s : nat * nat) =>
          let size := length (v k) in
          let cnt := if Nat.ltb 0 size then snd s + 1 else snd s in
          let mx := if Nat.ltb (fst s) size then size else fst s in
          (mx, cnt)) n 0 (0, 0)) as HL.
  apply HL; [reflexivity|]. intros m s _ ->. cbv zeta. cbn [fst snd].
  rewrite seq_S, map_app, list_max_app, filter_app, app_length.
  assert (E1 : forall x, list_max [x] = x) by (intros x; unfold list_max; cbn [fold_right]; lia).
  rewrite Nat.add_0_l. cbn [map filter]. rewrite E1.
  f_equal.
  - destruct (Nat.ltb_spec (list_max (map (fun k => length (v k)) (seq 0 m))) (length (v m))); lia.
  - destruct (Nat.ltb 0 (length (v m))); cbn [length]; lia.
Qed.
