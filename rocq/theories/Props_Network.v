(** Property theorems C07-C12 and C53 (network assembly, conditioning, islands). *)
From Coq Require Import Reals Lra Lia List Arith Bool ZArith Permutation.
From Verif Require Import Num Loops Spec_Ldu Ldu LduFacts LduDom SolveExt
  Spec_Assembly Assembly Spec_Islands Islands IslandSolve.
Import ListNotations.
Local Open Scope R_scope.

(** C07: the entry of nodes (i,j) is the sum over links and map slots of the
    contributions mapped there, whatever was in the array before. *)
Theorem C07_admittance_sum n (links : list (link R)) A0 i j :
  (i < n)%nat -> (j < n)%nat ->
  build_admittance n links A0 (Z.of_nat (i * n + j)) =
  lsum (fun l => rsum (lk_msize l)
    (fun m => when (Z.eqb (lk_map l m) (Z.of_nat (i * n + j))) (lk_adm l m))) links.
Proof. intros Hi Hj. apply build_admittance_sum. now apply (fidx_range n i j). Qed.
Print Assumptions C07_admittance_sum.

Theorem C07_order_irrelevant n (links links' : list (link R)) A0 A0' i j :
  Permutation links links' -> (i < n)%nat -> (j < n)%nat ->
  build_admittance n links A0 (Z.of_nat (i * n + j)) =
  build_admittance n links' A0' (Z.of_nat (i * n + j)).
Proof.
  intros HP Hi Hj. rewrite !C07_admittance_sum by assumption. now apply lsum_perm.
Qed.
Print Assumptions C07_order_irrelevant.

(** Contributions mapped outside the matrix (ground is -1) change nothing: a
    link whose whole map is out of range can be removed. *)
Theorem C07_out_of_range_ignored n (l : link R) links A0 i j :
  (forall m, (m < lk_msize l)%nat -> (lk_map l m < 0 \/ Z.of_nat (n * n) <= lk_map l m)%Z) ->
  (i < n)%nat -> (j < n)%nat ->
  build_admittance n (l :: links) A0 (Z.of_nat (i * n + j)) =
  build_admittance n links A0 (Z.of_nat (i * n + j)).
Proof.
  intros Hm Hi Hj. rewrite !C07_admittance_sum by assumption. cbn [lsum].
  rewrite rsum_zero; [lra|]. intros m Hmm. pose proof (fidx_range n i j Hi Hj) as Hf. unfold fidx in Hf.
  unfold when. destruct (Z.eqb_spec (lk_map l m) (Z.of_nat (i * n + j))); [|reflexivity].
  destruct (Hm m Hmm); lia.
Qed.
Print Assumptions C07_out_of_range_ignored.

(** C08 *)
Theorem C08_source_sum n (links : list (link R)) w :
  (forall l, In l links -> forall p, (p < lk_ports l)%nat -> (0 <= lk_nodes l p)%Z) ->
  exists w', build_source n links w = Some w' /\
    forall i, (i < n)%nat ->
      w' (Z.of_nat i) = lsum (fun l => rsum (lk_ports l)
        (fun p => when (Z.eqb (lk_nodes l p) (Z.of_nat i)) (lk_src l p))) links.
Proof.
  intros Hl. destruct (build_source_sum n links w Hl) as (w' & E & Hw). exists w'.
  split; [exact E|]. intros i Hi. apply Hw. lia.
Qed.
Print Assumptions C08_source_sum.

(** C08, boundary: a negative node number is an out-of-bounds store (the model's [None]). *)
Theorem C08_negative_node_is_undefined {T} `{Num T} n (links : list (link T)) l p w :
  In l links -> (p < lk_ports l)%nat -> (lk_nodes l p < 0)%Z -> build_source n links w = None.
Proof. exact (build_source_negative n links l p w). Qed.
Print Assumptions C08_negative_node_is_undefined.

(** C09 *)
Theorem C09_conditioning n (A : nat -> nat -> R) :
  let B := condition n A in
  (forall i j, i <> j -> B i j = A i j) /\
  (forall i, (i < n)%nat -> Reps <= Rabs (rsum n (fun c => A i c)) -> B i i = A i i) /\
  (forall i, (i < n)%nat -> Rabs (rsum n (fun c => A i c)) < Reps ->
     A i i + Reps * / IZR (10 ^ 15) <= B i i /\
     B i i <= A i i + Rmax (A i i) Reps * / IZR (10 ^ 15)).
Proof.
  cbv zeta. destruct (condition_spec n A) as (H1 & H2). repeat split.
  - intros i j Hne. apply H1. now left.
  - intros i Hi Hge. rewrite H2 by assumption. rewrite Rltb_false by lra. reflexivity.
  - rewrite H2 by assumption. rewrite Rltb_true by lra. pose proof (leak_bounds (A i i)). lra.
  - rewrite H2 by assumption. rewrite Rltb_true by lra. unfold leak. lra.
Qed.
Print Assumptions C09_conditioning.

(** C10: labels are the least node of the connected component. *)
Theorem C10_islands_are_components n (A : nat -> nat -> R) lab0 i j :
  (forall i j, (i < n)%nat -> (j < n)%nat -> A i j = 0 -> A j i = 0) ->
  (i < n)%nat -> (j < n)%nat ->
  let edge a b := (a < n)%nat /\ (b < n)%nat /\ a <> b /\ A a b <> 0 in
  let lab := island_labels n (nonzero A) lab0 in
  (lab i = lab j <-> connected edge i j) /\
  connected edge i (lab i) /\
  (connected edge i j -> (lab i <= j)%nat).
Proof.
  intros Hsym Hi Hj edge lab.
  assert (Heq : forall a b, connected (upper_edge n (nonzero A)) a b <-> connected edge a b).
  { assert (He : forall a b, upper_edge n (nonzero A) a b -> edge a b).
    { intros a b (H1 & H2 & H3). repeat split; try lia. unfold nonzero in H3. revert H3. rnum.
      destruct (Reqb_spec (A a b) 0); [discriminate|auto]. }
    assert (Hc : forall a b, edge a b -> upper_edge n (nonzero A) a b \/ upper_edge n (nonzero A) b a).
    { intros a b (Ha & Hb & Hne & Hz).
      assert (Hnz : forall c d, A c d <> 0 -> nonzero A c d = true).
      { intros c d Hcd. unfold nonzero. rnum. destruct (Reqb_spec (A c d) 0); [contradiction|reflexivity]. }
      destruct (Nat.lt_ge_cases a b); [left|right]; repeat split; try lia; auto. }
    intros a b. split; intros H; induction H as [a|a b c He' Hc' IH].
    - constructor.
    - eapply conn_step; [|exact IH]. destruct He' as [H|H]; [left|right]; now apply He.
    - constructor.
    - eapply conn_step; [|exact IH]. destruct He' as [H|H]; apply Hc in H; tauto. }
  rewrite <- !Heq.
  destruct (island_labels_min n (nonzero A) lab0 i Hi) as (M1 & M2 & M3).
  split; [now apply island_labels_components|]. split; [exact M1|]. intros Hc. now apply M3.
Qed.
Print Assumptions C10_islands_are_components.

(** C11: the vectors partition the nodes, in increasing order, and the metrics
    describe them.  Holds for any number type and any matrix. *)
Theorem C11_vectors_partition n (nz : nat -> nat -> bool) lab0 v0 :
  let lab := island_labels n nz lab0 in
  let v := island_vectors n lab v0 in
  (forall i, (i < n)%nat -> (lab i < n)%nat /\ In i (v (lab i))) /\
  (forall k i, (k < n)%nat -> In i (v k) -> (i < n)%nat /\ lab i = k) /\
  (forall k, (k < n)%nat -> increasing (v k)) /\
  (forall k, (k < n)%nat -> length (v k) <= fst (island_metrics n v))%nat /\
  (1 <= n -> exists k, k < n /\ length (v k) = fst (island_metrics n v))%nat /\
  snd (island_metrics n v) = length (filter (fun k => Nat.ltb 0 (length (v k))) (seq 0 n)).
Proof.
  cbv zeta. set (lab := island_labels n nz lab0).
  assert (Hlab : forall i, (i < n)%nat -> (lab i < n)%nat) by (intros i Hi; now apply island_labels_min).
  pose proof (fun k => island_vectors_spec n lab v0 k Hlab) as Hv.
  set (v := island_vectors n lab v0) in *.
  split; [|split; [|split; [|split; [|split]]]].
  - intros i Hi. split; [now apply Hlab|]. rewrite Hv by now apply Hlab.
    apply filter_In. rewrite in_seq, Nat.eqb_eq. split; [lia|reflexivity].
  - intros k i Hk Hin. rewrite Hv in Hin by assumption. apply filter_In in Hin.
    rewrite in_seq, Nat.eqb_eq in Hin. split; [lia|tauto].
  - intros k Hk. rewrite Hv by assumption. apply increasing_filter_seq.
  - intros k Hk. rewrite island_metrics_spec. cbn [fst].
    assert (Hle : (list_max (map (fun k => length (v k)) (seq 0 n)) <= list_max (map (fun k => length (v k)) (seq 0 n)))%nat) by lia.
    apply list_max_le in Hle. rewrite Forall_forall in Hle. apply Hle.
    apply (in_map (fun k => length (v k))). apply in_seq. lia.
  - intros Hn. rewrite island_metrics_spec. cbn [fst].
    assert (Hex : forall l, l <> [] -> In (list_max l) l).
    { induction l as [|a l IH]; [congruence|]. intros _.
      change (list_max (a :: l)) with (Nat.max a (list_max l)).
      destruct l as [|b l]; [left; unfold list_max; cbn [fold_right]; lia|].
      destruct (Nat.max_spec a (list_max (b :: l))) as [[H E]|[H E]]; rewrite E; [right|left; reflexivity].
      apply IH. discriminate. }
    specialize (Hex (map (fun k => length (v k)) (seq 0 n))).
    assert (Hne : map (fun k => length (v k)) (seq 0 n) <> []) by (destruct n; [lia|discriminate]).
    specialize (Hex Hne). apply in_map_iff in Hex. destruct Hex as (k & E & Hk).
    apply in_seq in Hk. exists k. split; [lia|exact E].
  - rewrite island_metrics_spec. reflexivity.
Qed.
Print Assumptions C11_vectors_partition.

(** C12: where the one-piece decomposition succeeds, decomposition by islands
    succeeds with the same entries, and Solve then returns the same potentials. *)
Theorem C12_island_solve n (A : nat -> nat -> R) lab0 v0 M :
  (1 <= n)%nat ->
  (forall i j, (i < n)%nat -> (j < n)%nat -> A i j = 0 -> A j i = 0) ->
  decompose n A = inl M ->
  let vecs := island_vectors n (island_labels n (nonzero A) lab0) v0 in
  exists M', decompose_islands n vecs A = inl M' /\
    (forall i j, (i < n)%nat -> (j < n)%nat -> M' i j = M i j) /\
    (forall B x, solve M' B x n = solve M B x n).
Proof.
  intros Hn Hsym HM. cbv zeta.
  destruct (islands_same_as_whole n A lab0 v0 M Hn Hsym HM) as (M' & E & HE).
  exists M'. split; [exact E|]. split; [exact HE|]. intros B x. now apply solve_ext.
Qed.
Print Assumptions C12_island_solve.

Theorem C12_converse n (A : nat -> nat -> R) lab0 v0 M' :
  (1 <= n)%nat ->
  (forall i j, (i < n)%nat -> (j < n)%nat -> A i j = 0 -> A j i = 0) ->
  decompose_islands n (island_vectors n (island_labels n (nonzero A) lab0) v0) A = inl M' ->
  (forall k, (1 <= k < n)%nat -> 0 < M' k k) ->
  exists M, decompose n A = inl M /\ forall i j, (i < n)%nat -> (j < n)%nat -> M i j = M' i j.
Proof. exact (whole_same_as_islands n A lab0 v0 M'). Qed.
Print Assumptions C12_converse.

(** Without positive pivots the two modes differ: a node alone on its island
    is never pivot-checked in island mode. *)
Definition neg2 : nat -> nat -> R := fun i j => if Nat.eqb i j then (if Nat.eqb i 0 then 1 else -1) else 0.
Theorem C12_error_detection_differs :
  (exists r M, decompose 2 neg2 = inr (r, M)) /\
  (exists M', decompose_islands 2 (island_vectors 2 (island_labels 2 (nonzero neg2) (fun _ => 0%nat)) (fun _ => [])) neg2 = inl M').
Proof.
  assert (Hsch : ent neg2 1 1 = -1).
  { unfold ent. cbn. change (neg2 1%nat 0%nat) with 0. rewrite flushR_0. unfold neg2. cbn. lra. }
  split.
  - pose proof (decompose_ent 2 neg2 ltac:(lia)) as HD.
    destruct (decompose 2 neg2) as [M|[r M]]; [|eauto].
    destruct HD as (_ & HD). specialize (HD 1%nat ltac:(lia)). lra.
  - set (lab := island_labels 2 (nonzero neg2) (fun _ => 0%nat)).
    assert (E0 : nonzero neg2 0 1 = false).
    { unfold nonzero. rnum. change (neg2 0%nat 1%nat) with 0. destruct (Reqb_spec 0 0); [reflexivity|lra]. }
    assert (El : lab 0%nat = 0%nat /\ lab 1%nat = 1%nat).
    { unfold lab, island_labels. cbn. unfold scan. rewrite E0. cbn. split; reflexivity. }
    destruct El as [El0 El1].
    set (vecs := island_vectors 2 lab (fun _ => [])).
    assert (Hv : forall k, (k < 2)%nat -> vecs k = filter (fun i => Nat.eqb (lab i) k) (seq 0 2)).
    { intros k Hk. apply island_vectors_spec; [|exact Hk]. intros i Hi.
      destruct i as [|[|i]]; [rewrite El0|rewrite El1|]; lia. }
    assert (E1 : vecs 0%nat = [0%nat] /\ vecs 1%nat = [1%nat]).
    { split; rewrite Hv by lia; cbn [filter seq]; rewrite El0, El1; reflexivity. }
    destruct E1 as [E1 E2].
    assert (P : forall k v, vecs k = [v] -> forall A : nat -> nat -> R, exists M, island_pass vecs k A = inl M).
    { intros k v E A. unfold island_pass. rewrite E. eexists. reflexivity. }
    unfold decompose_islands. cbn [loopE].
    destruct (P 0%nat 0%nat E1 neg2) as (M1 & ->).
    destruct (P 1%nat 1%nat E2 M1) as (M2 & ->). eauto.
Qed.
Print Assumptions C12_error_detection_differs.

(** C53: a network whose links all contribute passive conductances always
    decomposes after conditioning, with positive pivots, and then solves with
    a residual bounded by the flush threshold. *)
Theorem C53_passive_network_solves n (links : list (link R)) A0 B x :
  (1 <= n)%nat ->
  (forall l, In l links -> passive n (fun i j =>
     rsum (lk_msize l) (fun m => when (Z.eqb (lk_map l m) (Z.of_nat (i * n + j))) (lk_adm l m)))) ->
  let A := condition n (view n (build_admittance n links A0)) in
  exists M y, decompose n A = inl M /\ (forall k, (k < n)%nat -> 0 < M k k) /\
    solve M B x n = inl y /\
    forall i, (i < n)%nat ->
      Rabs (mat_vec n A y i - B i)
        <= tiny * (1 + rsum n (fun k => A k k + 1)) * rsum n (fun c => Rabs (y c)).
Proof.
  intros Hn Hl A.
  assert (HA : strictly_dominant n A)
    by (apply condition_passive_dominant; apply assembled_passive; exact Hl).
  destruct (decompose_solve_residual n A B x Hn HA) as (M & y & HM & Hy & Hres).
  exists M, y. split; [exact HM|]. split; [|split; [exact Hy|exact Hres]].
  intros k Hk. now apply (decompose_dominant_bounds n A M Hn HA HM).
Qed.
Print Assumptions C53_passive_network_solves.

(** ** Non-vacuity *)

(** A conductor of 2 between nodes 0 and 1 (map slots are the four corners),
    and a conductor of 3 from node 1 to ground (one slot in range). *)
Definition cond01 : link R := mklink R 4 (fun m => Z.of_nat m)
  (fun m => if Nat.eqb m 0 || Nat.eqb m 3 then 2 else -2) 2 (fun p => Z.of_nat p) (fun _ => 1).
Definition cond1g : link R := mklink R 4 (fun m => if Nat.eqb m 0 then 3%Z else (-1)%Z)
  (fun m => 3) 2 (fun p => if Nat.eqb p 0 then 1%Z else 2%Z) (fun _ => 0).

Ltac small i := destruct i as [|[|i]]; [| |exfalso; lia].

Example passive_links : forall l, In l [cond01; cond1g] -> passive 2 (fun i j =>
     rsum (lk_msize l) (fun m => when (Z.eqb (lk_map l m) (Z.of_nat (i * 2 + j))) (lk_adm l m))).
Proof.
  intros l [<-|[<-|[]]]; (split; [|split]).
  - intros i j Hi Hj. small i; small j; cbn; lra.
  - intros i j Hi Hj Hne. small i; small j; try lia; cbn; lra.
  - intros i Hi. small i; cbn; lra.
  - intros i j Hi Hj. small i; small j; cbn; lra.
  - intros i j Hi Hj Hne. small i; small j; try lia; cbn; lra.
  - intros i Hi. small i; cbn; lra.
Qed.

Example source_links : forall l, In l [cond01; cond1g] ->
  forall p, (p < lk_ports l)%nat -> (0 <= lk_nodes l p)%Z.
Proof. intros l [<-|[<-|[]]] p Hp; cbn; [lia|]. destruct (Nat.eqb p 0); lia. Qed.

(** A three-node matrix with islands {0,2} and {1}. *)
Definition isl3 : nat -> nat -> R := fun i j =>
  if Nat.eqb i j then 2 else if Nat.eqb (i + j) 2 then -1 else 0.
Example isl3_labels : let lab := island_labels 3 (nonzero isl3) (fun _ => 0%nat) in
  lab 0%nat = 0%nat /\ lab 1%nat = 1%nat /\ lab 2%nat = 0%nat.
Proof.
  assert (E01 : nonzero isl3 0 1 = false) by (unfold nonzero; rnum; cbn; destruct (Reqb_spec 0 0); [reflexivity|lra]).
  assert (E12 : nonzero isl3 1 2 = false) by (unfold nonzero; rnum; cbn; destruct (Reqb_spec 0 0); [reflexivity|lra]).
  assert (E02 : nonzero isl3 0 2 = true) by (unfold nonzero; rnum; cbn; destruct (Reqb_spec (-1) 0); [lra|reflexivity]).
  cbv zeta. unfold island_labels. cbn. unfold scan, col_min. rewrite E01, E02, E12. cbn. rewrite E12. cbn.
  repeat split; reflexivity.
Qed.
Example isl3_symmetric_pattern : forall i j, (i < 3)%nat -> (j < 3)%nat -> isl3 i j = 0 -> isl3 j i = 0.
Proof. intros i j _ _. unfold isl3. rewrite (Nat.eqb_sym i j), (Nat.add_comm i j). auto. Qed.
