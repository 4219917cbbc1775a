(** Gunns: assembly of the admittance matrix and source vector, and row conditioning.
    Source: /repo/core/Gunns.cpp. *)
From Coq Require Import Reals Lra Lia List Arith Bool ZArith Permutation Psatz.
From Verif Require Import Num Loops Spec_Ldu Ldu Spec_Assembly.
Import ListNotations.

(** What a link shows the solver (Gunns.cpp:464-476 stores these pointers):
    the admittance map and matrix, the port count, node map and source vector. *)
Record link (T : Type) := mklink {
  lk_msize : nat;            (* mLinkAdmittanceMaps[link]->mSize *)
  lk_map   : nat -> Z;       (* ->mMap[] *)
  lk_adm   : nat -> T;       (* mLinkAdmittanceMatrices[link][] *)
  lk_ports : nat;            (* mLinkNumPorts[link] *)
  lk_nodes : nat -> Z;       (* mLinkNodeMaps[link][] *)
  lk_src   : nat -> T        (* mLinkSourceVectors[link][] *)
}.
Arguments lk_msize {T}. Arguments lk_map {T}. Arguments lk_adm {T}.
Arguments lk_ports {T}. Arguments lk_nodes {T}. Arguments lk_src {T}.

Section Model.
  Context {T : Type} `{Num T}.
  Local Notation flat := (Z -> T).

  (** Gunns.cpp:1231-1234: zero the first [size] entries. *)
  Definition clear (size : nat) (A : flat) : flat :=
    loop (fun i A a => if Z.eqb a (Z.of_nat i) then n0 else A a) 0 size A.

  (** Gunns.cpp:1237-1242. *)
  Definition add_link (size : nat) (A : flat) (l : link T) : flat :=
    loop (fun m A =>
            let k := lk_map l m in
            if (-1 <? k)%Z && (k <? Z.of_nat size)%Z
            then fun a => if Z.eqb a k then A k +~ lk_adm l m else A a
            else A) 0 (lk_msize l) A.

  (** Gunns.cpp:1229-1243, without the island call at 1245. *)
  Definition build_admittance (n : nat) (links : list (link T)) (A : flat) : flat :=
    fold_left (add_link (n * n)) links (clear (n * n) A).

  (** Gunns.cpp:1350-1357; [None] is a store below the start of the array,
      which the code does for a negative node number. *)
  Definition add_src (n : nat) (w : option flat) (l : link T) : option flat :=
    loop (fun p w =>
            match w with
            | None => None
            | Some w =>
                let k := lk_nodes l p in
                if (k <? Z.of_nat n)%Z
                then if (k <? 0)%Z then None
                     else Some (fun a => if Z.eqb a k then w k +~ lk_src l p else w a)
                else Some w
            end) 0 (lk_ports l) w.

  (** Gunns.cpp:1342-1359. *)
  Definition build_source (n : nat) (links : list (link T)) (w : flat) : option flat :=
    fold_left (add_src n) links (Some (clear n w)).

  (** Gunns.cpp:1605-1626 on the matrix in row, column form. *)
  Definition row_sum (n : nat) (A : mat T) (row : nat) : T :=
    loop (fun c s => s +~ A row c) 0 n n0.
  Definition condition_row (n : nat) (row : nat) (A : mat T) : mat T :=
    if nabs (row_sum n A row) <~ neps
    then upd A row row (A row row +~ nmax (A row row) neps *~ ndec 1 (-15))
    else A.
  Definition condition (n : nat) (A : mat T) : mat T := loop (condition_row n) 0 n A.

  (** Row, column view of the flat array. *)
  Definition view (n : nat) (A : flat) : mat T := fun i j => A (Z.of_nat (i * n + j)).
End Model.

Local Open Scope R_scope.

Lemma clear_in (size : nat) (A : Z -> R) k : (0 <= k < Z.of_nat size)%Z -> clear size A k = 0.
Proof.
  intros Hk. unfold clear.
  pose proof (loop_inv (fun m (B : Z -> R) => forall k, (0 <= k < Z.of_nat m)%Z -> B k = 0)
    (fun i A a => if Z.eqb a (Z.of_nat i) then n0 else A a) size 0%nat A) as HL.
  apply HL; [intros; lia| |assumption].
  intros i B _ IH j Hj. destruct (Z.eqb_spec j (Z.of_nat i)); [reflexivity|]. apply IH. lia.
Qed.

Lemma add_link_spec size (A : Z -> R) l k : (0 <= k < Z.of_nat size)%Z ->
  add_link size A l k = A k + rsum (lk_msize l) (fun m => when (Z.eqb (lk_map l m) k) (lk_adm l m)).
Proof.
  intros Hk. unfold add_link.
  pose proof (loop_inv (fun m (B : Z -> R) =>
    forall k, (0 <= k < Z.of_nat size)%Z ->
      B k = A k + rsum m (fun m => when (Z.eqb (lk_map l m) k) (lk_adm l m)))
    (fun m A => let k := lk_map l m in
            if (-1 <? k)%Z && (k <? Z.of_nat size)%Z
            then fun a => if Z.eqb a k then A k +~ lk_adm l m else A a
            else A) (lk_msize l) 0%nat A) as HL.
  apply HL; [intros; cbn; lra| |assumption].
  intros m B _ IH j Hj. cbv zeta. cbn [rsum]. rnum. unfold when at 2.
  destruct (Z.ltb_spec (-1) (lk_map l m)); destruct (Z.ltb_spec (lk_map l m) (Z.of_nat size)); cbn.
  - rewrite (Z.eqb_sym (lk_map l m) j). destruct (Z.eqb_spec j (lk_map l m)) as [->|Hne].
    + rewrite IH by lia. lra.
    + rewrite IH by lia. lra.
  - rewrite IH by lia. destruct (Z.eqb_spec (lk_map l m) j); [lia|lra].
  - rewrite IH by lia. destruct (Z.eqb_spec (lk_map l m) j); [lia|lra].
  - rewrite IH by lia. destruct (Z.eqb_spec (lk_map l m) j); [lia|lra].
Qed.

(** Contribution of one link to flat entry [k]. *)
Definition contrib (l : link R) (k : Z) : R :=
  rsum (lk_msize l) (fun m => when (Z.eqb (lk_map l m) k) (lk_adm l m)).

Lemma build_admittance_sum n (links : list (link R)) A k :
  (0 <= k < Z.of_nat (n * n))%Z ->
  build_admittance n links A k = lsum (fun l => contrib l k) links.
Proof.
  intros Hk. unfold build_admittance.
  assert (H : forall ls B, fold_left (add_link (n * n)) ls B k = B k + lsum (fun l => contrib l k) ls).
  { induction ls as [|l ls IH]; intros B; cbn; [lra|]. rewrite IH, add_link_spec by assumption.
    unfold contrib at 2. lra. }
  rewrite H, clear_in by assumption. lra.
Qed.

Lemma lsum_perm {X} (f : X -> R) l l' : Permutation l l' -> lsum f l = lsum f l'.
Proof. induction 1; cbn; lra. Qed.

Lemma add_src_spec n l : (forall p, (p < lk_ports l)%nat -> (0 <= lk_nodes l p)%Z) ->
  forall w : Z -> R, exists w', add_src n (Some w) l = Some w' /\
  forall k, (0 <= k < Z.of_nat n)%Z ->
    w' k = w k + rsum (lk_ports l) (fun p => when (Z.eqb (lk_nodes l p) k) (lk_src l p)).
Proof.
  intros Hn w. unfold add_src.
  pose proof (loop_inv (fun m (B : option (Z -> R)) => (m <= lk_ports l)%nat ->
    exists w', B = Some w' /\ forall k, (0 <= k < Z.of_nat n)%Z ->
      w' k = w k + rsum m (fun p => when (Z.eqb (lk_nodes l p) k) (lk_src l p)))
    (fun p w =>
            match w with
            | None => None
            | Some w =>
                let k := lk_nodes l p in
                if (k <? Z.of_nat n)%Z
                then if (k <? 0)%Z then None
                     else Some (fun a => if Z.eqb a k then w k +~ lk_src l p else w a)
                else Some w
            end) (lk_ports l) 0%nat (Some w)) as HL.
  apply HL; [|intros p B Hp IH Hm|lia]; clear HL.
  - intros _. exists w. split; [reflexivity|]. intros; cbn; lra.
  - destruct IH as (w' & -> & IH); [lia|]. cbv zeta. cbn [rsum].
    pose proof (Hn p ltac:(lia)) as H0.
    destruct (Z.ltb_spec (lk_nodes l p) (Z.of_nat n)).
    + destruct (Z.ltb_spec (lk_nodes l p) 0); [lia|].
      eexists. split; [reflexivity|]. intros k Hk. cbn beta. rnum. unfold when at 2.
      rewrite (Z.eqb_sym (lk_nodes l p) k).
      destruct (Z.eqb_spec k (lk_nodes l p)) as [->|Hne]; rewrite IH by lia; lra.
    + exists w'. split; [reflexivity|]. intros k Hk. rewrite IH by lia. unfold when at 3.
      destruct (Z.eqb_spec (lk_nodes l p) k); [lia|lra].
Qed.

Definition scontrib (l : link R) (k : Z) : R :=
  rsum (lk_ports l) (fun p => when (Z.eqb (lk_nodes l p) k) (lk_src l p)).

Lemma build_source_sum n (links : list (link R)) w :
  (forall l, In l links -> forall p, (p < lk_ports l)%nat -> (0 <= lk_nodes l p)%Z) ->
  exists w', build_source n links w = Some w' /\
    forall k, (0 <= k < Z.of_nat n)%Z -> w' k = lsum (fun l => scontrib l k) links.
Proof.
  intros Hl. unfold build_source.
  assert (H : forall ls B, (forall l, In l ls -> forall p, (p < lk_ports l)%nat -> (0 <= lk_nodes l p)%Z) ->
    exists w', fold_left (add_src n) ls (Some B) = Some w' /\
    forall k, (0 <= k < Z.of_nat n)%Z -> w' k = B k + lsum (fun l => scontrib l k) ls).
  { induction ls as [|l ls IH]; intros B HB; cbn [fold_left lsum].
    - exists B. split; [reflexivity|]. intros; lra.
    - destruct (add_src_spec n l (HB l (or_introl eq_refl)) B) as (B' & -> & HB').
      destruct (IH B' (fun l' Hl' => HB l' (or_intror Hl'))) as (w' & -> & Hw').
      exists w'. split; [reflexivity|]. intros k Hk. rewrite Hw', HB' by assumption.
      unfold scontrib at 2. lra. }
  destruct (H links (clear n w) Hl) as (w' & -> & Hw'). exists w'. split; [reflexivity|].
  intros k Hk. rewrite Hw', clear_in by assumption. lra.
Qed.

(** A negative node number is undefined behaviour, not a dropped contribution. *)
Lemma add_src_negative {T} `{Num T} n (l : link T) p w :
  (p < lk_ports l)%nat -> (lk_nodes l p < 0)%Z -> add_src n w l = None.
Proof.
  intros Hp Hneg. unfold add_src.
  set (f := fun p w => match w with | None => None | Some w => _ end).
  assert (Hnone : forall c lo, loop f lo c None = None) by (induction c; cbn; auto).
  assert (H1 : forall c lo w, (lo <= p < lo + c)%nat -> loop f lo c w = None).
  { induction c as [|c IH]; intros lo v Hlo; [lia|]. cbn [loop].
    destruct (Nat.eq_dec lo p) as [->|Hne]; [|apply IH; lia].
    replace (f p v) with (@None (Z -> T)); [apply Hnone|].
    destruct v as [v|]; [|reflexivity]. unfold f. cbn zeta.
    destruct (Z.ltb_spec (lk_nodes l p) (Z.of_nat n)); [|lia].
    destruct (Z.ltb_spec (lk_nodes l p) 0); [reflexivity|lia]. }
  apply H1. lia.
Qed.

Lemma build_source_negative {T} `{Num T} n (links : list (link T)) l p w :
  In l links -> (p < lk_ports l)%nat -> (lk_nodes l p < 0)%Z -> build_source n links w = None.
Proof.
  intros Hin Hp Hneg. unfold build_source. generalize (Some (clear n w)).
  induction links as [|l' ls IH]; [contradiction|]. intros v. cbn [fold_left].
  destruct Hin as [->|Hin]; [|now apply IH].
  rewrite (add_src_negative n l p v Hp Hneg).
  clear. induction ls as [|l' ls IH]; [reflexivity|]. cbn [fold_left].
  replace (add_src n None l') with (@None (Z -> T)); [exact IH|].
  unfold add_src. generalize 0%nat. induction (lk_ports l') as [|c IHc]; intros lo; cbn; auto.
Qed.

(** ** Conditioning *)

Lemma row_sum_R n (A : mat R) row : row_sum n A row = rsum n (fun c => A row c).
Proof.
  unfold row_sum.
  pose proof (loop_inv (fun m (s : R) => s = rsum m (fun c => A row c))
    (fun c s => s +~ A row c) n 0%nat n0) as HL.
  apply HL; [reflexivity|]. intros i s _ ->. reflexivity.
Qed.

Definition leak (d : R) : R := Rmax d Reps * / IZR (10 ^ 15).

Lemma nmax_R a b : nmax a b = Rmax a b.
Proof. unfold nmax. rnum. unfold Rmax. destruct (Rltb_spec a b); destruct (Rle_dec a b); lra. Qed.

Lemma condition_spec n (A : mat R) :
  let B := condition n A in
  (forall i j, i <> j \/ (n <= i)%nat -> B i j = A i j) /\
  (forall i, (i < n)%nat ->
     B i i = if Rltb (Rabs (rsum n (fun c => A i c))) Reps then A i i + leak (A i i) else A i i).
Proof.
  cbv zeta. unfold condition.
  pose proof (loop_inv (fun m (B : mat R) =>
    (forall i j, i <> j \/ (m <= i)%nat -> B i j = A i j) /\
    (forall i, (i < m)%nat ->
      B i i = if Rltb (Rabs (rsum n (fun c => A i c))) Reps then A i i + leak (A i i) else A i i))
    (condition_row n) n 0%nat A) as HL.
  apply HL; clear HL.
  - split; [reflexivity|]. intros; lia.
  - intros r B Hr (H1 & H2).
    assert (E : rsum n (fun c => B r c) = rsum n (fun c => A r c)).
    { apply rsum_ext. intros c Hc. apply H1. lia. }
    unfold condition_row. rewrite row_sum_R, E. rnum. rewrite nmax_R.
    destruct (Rltb (Rabs (rsum n (fun c => A r c))) Reps) eqn:Eb.
    + split.
      * intros i j Hij. rewrite upd_neq by lia. apply H1. lia.
      * intros i Hi. destruct (Nat.eq_dec i r) as [->|Hne].
        -- rewrite upd_eq, Eb. rewrite !(H1 r r) by lia. unfold leak, Rdec. cbn. f_equal. lra.
        -- rewrite upd_neq by lia. apply H2. lia.
    + split.
      * intros i j Hij. apply H1. lia.
      * intros i Hi. destruct (Nat.eq_dec i r) as [->|Hne]; [rewrite Eb; apply H1; lia|apply H2; lia].
Qed.

Lemma leak_bounds d : Reps * / IZR (10 ^ 15) <= leak d /\ 0 < leak d.
Proof.
  pose proof Reps_pos. unfold leak.
  assert (Hi : 0 < / IZR (10 ^ 15)) by (apply Rinv_0_lt_compat, (IZR_lt 0); reflexivity).
  pose proof (Rmax_r d Reps). split; [nra|]. apply Rmult_lt_0_compat; lra.
Qed.

(** A conditioned passive matrix is strictly dominant. *)
Lemma condition_passive_dominant n (A : mat R) : passive n A -> strictly_dominant n (condition n A).
Proof.
  intros (Hs & Hoff & Hrow). destruct (condition_spec n A) as (H1 & H2).
  set (B := condition n A) in *. split; [|split].
  - intros i j Hi Hj. destruct (Nat.eq_dec i j) as [->|Hne]; [reflexivity|].
    rewrite !H1 by lia. now apply Hs.
  - intros i j Hi Hj Hne. rewrite H1 by lia. now apply Hoff.
  - intros i Hi. pose proof (Hrow i Hi) as Hr.
    assert (E : rsum n (fun c => A i c) = A i i - rsum n (fun j => if Nat.eqb j i then 0 else Rabs (B i j))).
    { rewrite (rsum_extract n i) by assumption.
      assert (E : rsum n (fun j => if Nat.eqb j i then 0 else A i j)
               = rsum n (fun j => -1 * (if Nat.eqb j i then 0 else Rabs (B i j)))).
      { apply rsum_ext. intros j Hj. destruct (Nat.eqb_spec j i); [lra|].
        rewrite H1 by lia. rewrite Rabs_left1 by (apply Hoff; lia). lra. }
      rewrite E, rsum_scal. lra. }
    rewrite (H2 i Hi). destruct (Rltb_spec (Rabs (rsum n (fun c => A i c))) Reps) as [Hlt|Hge].
    + pose proof (leak_bounds (A i i)). lra.
    + rewrite Rabs_right in Hge by lra. pose proof Reps_pos. lra.
Qed.

(** ** Passive networks *)

Lemma passive_zero n : passive n (fun _ _ => 0).
Proof.
  split; [reflexivity|]. split; [intros; lra|]. intros i Hi. rewrite rsum_zero by reflexivity. apply Rle_refl.
Qed.
Lemma passive_plus n A B : passive n A -> passive n B -> passive n (fun i j => A i j + B i j).
Proof.
  intros (A1 & A2 & A3) (B1 & B2 & B3). split; [|split].
  - intros i j Hi Hj. rewrite (A1 i j), (B1 i j) by assumption. reflexivity.
  - intros i j Hi Hj Hne. pose proof (A2 i j Hi Hj Hne). pose proof (B2 i j Hi Hj Hne). lra.
  - intros i Hi. rewrite rsum_plus. apply Rplus_le_le_0_compat; auto.
Qed.
Lemma passive_ext n A B : (forall i j, (i < n)%nat -> (j < n)%nat -> A i j = B i j) -> passive n A -> passive n B.
Proof.
  intros E (A1 & A2 & A3). split; [|split].
  - intros i j Hi Hj. rewrite <- !E by assumption. auto.
  - intros i j Hi Hj Hne. rewrite <- E by assumption. auto.
  - intros i Hi. replace (rsum n (fun j => B i j)) with (rsum n (fun j => A i j)); [auto|].
    apply rsum_ext. intros j Hj. now apply E.
Qed.

(** Flat index of (i,j). *)
Definition fidx (n i j : nat) : Z := Z.of_nat (i * n + j).
Lemma fidx_range n i j : (i < n)%nat -> (j < n)%nat -> (0 <= fidx n i j < Z.of_nat (n * n))%Z.
Proof. intros Hi Hj. unfold fidx. nia. Qed.

Lemma assembled_passive n (links : list (link R)) A0 :
  (forall l, In l links -> passive n (fun i j => contrib l (fidx n i j))) ->
  passive n (view n (build_admittance n links A0)).
Proof.
  intros Hl.
  apply passive_ext with (fun i j => lsum (fun l => contrib l (fidx n i j)) links).
  { intros i j Hi Hj. unfold view. fold (fidx n i j). rewrite build_admittance_sum; [reflexivity|].
    now apply fidx_range. }
  induction links as [|l ls IH]; cbn; [apply passive_zero|].
  apply passive_plus; [apply Hl; now left|]. apply IH. intros; apply Hl; now right.
Qed.
