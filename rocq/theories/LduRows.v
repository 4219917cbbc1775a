(** CholeskyLdu::Decompose(double*, int, std::vector<int>&): the row-list version (C05).
    Source: /repo/ms-utils/math/linear_algebra/CholeskyLdu.cpp:134-201. *)
From Coq Require Import Lia List Arith Bool ZArith.
From Verif Require Import Num Loops Ldu.

Section Model.
  Context {T : Type} `{Num T}.
  (** The flat array, addressed by the pointer offset from [A]. *)
  Local Notation flat := (Z -> T).
  Definition updf (F : flat) (o : Z) (v : T) : flat := fun a => if Z.eqb a o then v else F a.

  Variable n : Z.          (* second argument *)
  Variable r : nat -> Z.   (* the row list, r[i] for i < rn *)
  Variable rn : nat.       (* r.size() *)

  (** CholeskyLdu.cpp:139-146. *)
  Definition vrk (i : nat) : Z := match i with O => r 0 | S m => (r i - r m)%Z end.
  Definition vri (i : nat) : Z := (n * vrk i)%Z.

  (** CholeskyLdu.cpp:159-164: state is array, p_i_k, p_j_k. *)
  Definition rdec_k (pij : Z) (k : nat) (s : flat * Z * Z) : flat * Z * Z :=
    let '(F, pik, pjk) := s in
    let F1 := if (F pik <~ ldu_limit) && (F pjk <~ ldu_limit)
              then updf F pij (F pij -~ F pik *~ F pjk) else F in
    (F1, (pik + vrk (S k))%Z, (pjk + vrk (S k))%Z).

  (** CholeskyLdu.cpp:155-171: state is array, p_i_j, p_j. *)
  Definition rdec_j (pi : Z) (j : nat) (s : flat * Z * Z) : flat * Z * Z :=
    let '(F, pij, pj) := s in
    let F1 := fst (fst (loop (rdec_k pij) 0 j (F, pi, pj))) in
    let F2 := if (ldu_limit <~ F1 pij) && (F1 pij <~ nopp ldu_limit)
              then updf F1 pij n0 else F1 in
    (F2, (pij + vrk (S j))%Z, (pj + vri (S j))%Z).

  (** CholeskyLdu.cpp:178-183: state is array, p_k, p_i_k, p_k_k. *)
  Definition rdec_scale (pii ki : Z) (k : nat) (s : flat * Z * Z * Z) : flat * Z * Z * Z :=
    let '(F, pk, pik, pkk) := s in
    let ld := F pik /~ F pkk in
    let F1 := updf F pii (F pii -~ F pik *~ ld) in
    let F2 := updf F1 pik ld in
    let F3 := updf F2 (pk + ki)%Z ld in
    (F3, (pk + vri (S k))%Z, (pik + vrk (S k))%Z, (pkk + (vri (S k) + vrk (S k)))%Z).

  (** CholeskyLdu.cpp:150-198: state is array, p_i, p_i_i, ki. *)
  Definition rdec_row (i : nat) (s : flat * Z * Z * Z) : flat * Z * Z * Z + nat * flat :=
    let '(F, pi, pii, ki) := s in
    let F1 := fst (fst (loop (rdec_j pi) 0 i (F, pi, (n * vrk 0 + vrk 0)%Z))) in
    let pii1 := (pii + (vri i + vrk i))%Z in
    let p0 := (vri 0 + vrk 0)%Z in
    let F2 := fst (fst (fst (loop (rdec_scale pii1 ki) 0 i (F1, p0, pi, p0)))) in
    if F2 pii1 <=~ n0 then inr (i, F2)
    else if Nat.ltb i (rn - 1)
         then inl (F2, (pi + vri (S i))%Z, pii1, (ki + vrk (S i))%Z)
         else inl (F2, pi, pii1, ki).

  (** CholeskyLdu.cpp:134-201.  Reads r[0] and r[1], so it needs rn >= 2. *)
  Definition decompose_rows (F : flat) : flat + nat * flat :=
    match loopE rdec_row 1 (rn - 1)
            (F, (n * r 1 + r 0)%Z, (vri 0 + vrk 0)%Z, vrk 1) with
    | inl (F', _, _, _) => inl F'
    | inr e => inr e
    end.

  (** Specification: offset of entry (a,b) of the gathered sub-matrix. *)
  Definition off (a b : nat) : Z := (n * r a + r b)%Z.
  Definition gather (F : flat) : mat T := fun a b => F (off a b).

  Definition rows_ok : Prop :=
    (forall a, a < rn -> (0 <= r a < n)%Z) /\
    (forall a b, a < rn -> b < rn -> r a = r b -> a = b).
  Definition listed (o : Z) : Prop := exists a b, a < rn /\ b < rn /\ o = off a b.

  Hypothesis Hok : rows_ok.

  Lemma off_inj a b c d : a < rn -> b < rn -> c < rn -> d < rn ->
    off a b = off c d -> a = c /\ b = d.
  Proof.
    intros Ha Hb Hc Hd E. destruct Hok as (Hrange & Hinj). unfold off in E.
    pose proof (Hrange a Ha). pose proof (Hrange b Hb).
    pose proof (Hrange c Hc). pose proof (Hrange d Hd).
    assert (r a = r c) by nia.
    assert (r b = r d) by nia. auto.
  Qed.

  (** Array [F] agrees with matrix [M] on the listed block and with [F0] elsewhere. *)
  Definition sim (F0 F : flat) (M : mat T) : Prop :=
    (forall a b, a < rn -> b < rn -> F (off a b) = M a b) /\
    (forall o, ~ listed o -> F o = F0 o).

  Lemma sim_upd F0 F M a b v : sim F0 F M -> a < rn -> b < rn ->
    sim F0 (updf F (off a b) v) (upd M a b v).
  Proof.
    intros (Hin & Hout) Ha Hb. split.
    - intros c d Hc Hd. unfold updf, upd.
      destruct (Z.eqb_spec (off c d) (off a b)) as [E|E].
      + apply off_inj in E; auto. destruct E as [-> ->]. now rewrite !Nat.eqb_refl.
      + destruct (Nat.eqb_spec c a), (Nat.eqb_spec d b); cbn; subst; auto; congruence.
    - intros o Ho. unfold updf. destruct (Z.eqb_spec o (off a b)); auto.
      subst. exfalso. apply Ho. exists a, b. auto.
  Qed.

  Lemma vrk_S k : (r k + vrk (S k))%Z = r (S k).
  Proof. cbn. lia. Qed.

  Lemma rdec_k_sim F0 F M i j : j < i -> i < rn -> sim F0 F M ->
    sim F0 (fst (fst (loop (rdec_k (off i j)) 0 j (F, off i 0, off j 0)))) (loop (dec_k i j) 0 j M).
  Proof.
    intros Hji Hi HF.
    refine (proj1 (loop_rel (fun k (s : flat * Z * Z) M =>
       sim F0 (fst (fst s)) M /\ snd (fst s) = off i k /\ snd s = off j k)
       (rdec_k (off i j)) (dec_k i j) j 0 (F, off i 0, off j 0) M _ _)).
    - cbn; auto.
    - intros k [[F1 pik] pjk] M1 Hk (Hs & E1 & E2). cbn in E1, E2, Hs |- *. subst pik pjk.
      split; [|unfold off; split; [rewrite <- (vrk_S k)|rewrite <- (vrk_S k)]; cbn; lia].
      unfold dec_k. destruct Hs as (Hin & Hout).
      rewrite !Hin by lia. destruct (_ && _); [|split; auto].
      apply sim_upd; [split; auto|lia|lia].
  Qed.

  Lemma rdec_j_sim F0 F M i : i < rn -> sim F0 F M ->
    sim F0 (fst (fst (loop (rdec_j (off i 0)) 0 i (F, off i 0, off 0 0)))) (loop (dec_j i) 0 i M).
  Proof.
    intros Hi HF.
    refine (proj1 (loop_rel (fun j (s : flat * Z * Z) M =>
       sim F0 (fst (fst s)) M /\ snd (fst s) = off i j /\ snd s = off j 0)
       (rdec_j (off i 0)) (dec_j i) i 0 (F, off i 0, off 0 0) M _ _)).
    - cbn; auto.
    - intros j [[F1 pij] pj] M1 Hj (Hs & E1 & E2). cbn [fst snd] in E1, E2, Hs. subst pij pj.
      unfold rdec_j. cbn [fst snd].
      split; [|unfold off; split; [rewrite <- (vrk_S j); lia | unfold vri; rewrite <- (vrk_S j); lia]].
      pose proof (rdec_k_sim F0 F1 M1 i j ltac:(lia) Hi Hs) as Hs1.
      unfold dec_j.
      set (F2 := fst (fst (loop (rdec_k (off i j)) 0 j (F1, off i 0, off j 0)))) in *.
      set (M2 := loop (dec_k i j) 0 j M1) in *.
      rewrite (proj1 Hs1) by lia.
      destruct (_ && _); [|exact Hs1]. apply sim_upd; auto; lia.
  Qed.

  Lemma rdec_scale_sim F0 F M i : i < rn -> sim F0 F M ->
    sim F0 (fst (fst (fst (loop (rdec_scale (off i i) (r i - r 0)%Z) 0 i (F, off 0 0, off i 0, off 0 0)))))
      (loop (dec_scale i) 0 i M).
  Proof.
    intros Hi HF.
    refine (proj1 (loop_rel (fun k (s : flat * Z * Z * Z) M =>
       sim F0 (fst (fst (fst s))) M /\ snd (fst (fst s)) = off k 0 /\ snd (fst s) = off i k /\ snd s = off k k)
       (rdec_scale (off i i) (r i - r 0)%Z) (dec_scale i) i 0 (F, off 0 0, off i 0, off 0 0) M _ _)).
    - cbn; auto.
    - intros k [[[F1 pk] pik] pkk] M1 Hk (Hs & E1 & E2 & E3). cbn [fst snd] in E1, E2, E3, Hs. subst pk pik pkk.
      unfold rdec_scale. cbn [fst snd].
      split.
      + unfold dec_scale. rewrite !(proj1 Hs) by lia.
        replace (off k 0 + (r i - r 0))%Z with (off k i) by (unfold off; lia).
        apply sim_upd; [|lia|lia]. apply sim_upd; [|lia|lia]. apply sim_upd; [exact Hs|lia|lia].
      + unfold off, vri. repeat split; rewrite <- (vrk_S k); lia.
  Qed.

  (** Main simulation. *)
  Lemma decompose_rows_sim F : 2 <= rn ->
    match decompose_rows F, decompose rn (gather F) with
    | inl F', inl M => sim F F' M
    | inr (i, F'), inr (i', M) => i = i' /\ sim F F' M
    | _, _ => False
    end.
  Proof.
    intros Hrn.
    assert (H0 : sim F F (gather F)) by (split; auto).
    pose proof (loopE_rel (fun i (s : flat * Z * Z * Z) M =>
       sim F (fst (fst (fst s))) M /\
       (i < rn -> snd (fst (fst s)) = off i 0) /\
       snd (fst s) = off (i - 1) (i - 1) /\
       (i < rn -> snd s = (r i - r 0)%Z))
       (fun (e : nat * flat) (e' : nat * mat T) => fst e = fst e' /\ sim F (snd e) (snd e'))
       rdec_row dec_row (rn - 1) 1
       (F, (n * r 1 + r 0)%Z, (vri 0 + vrk 0)%Z, vrk 1) (gather F)) as HL.
    unfold decompose_rows, decompose.
    destruct (loopE rdec_row 1 (rn - 1) (F, (n * r 1 + r 0)%Z, (vri 0 + vrk 0)%Z, vrk 1))
      as [[[[F' pi'] pii'] ki']|[i F']];
      destruct (loopE dec_row 1 (rn - 1) (gather F)) as [M'|[i' M']]; cbn [fst snd] in HL; apply HL; clear HL.
    all: try (cbn; unfold off, vri; cbn; repeat split; auto; intros; lia).
    all: intros i0 [[[F1 pi] pii] ki] M1 Hi (Hs & E1 & E2 & E3); cbn [fst snd] in Hs, E1, E2, E3.
    all: specialize (E1 ltac:(lia)); specialize (E3 ltac:(lia)); subst pi pii ki.
    all: unfold rdec_row.
    all: replace (n * vrk 0 + vrk 0)%Z with (off 0 0) by (unfold off; cbn; lia).
    all: replace (vri 0 + vrk 0)%Z with (off 0 0) by (unfold off, vri; cbn; lia).
    all: replace (off (i0 - 1) (i0 - 1) + (vri i0 + vrk i0))%Z with (off i0 i0)
           by (destruct i0 as [|m]; [lia|]; unfold off, vri; cbn [Nat.sub]; rewrite Nat.sub_0_r;
               rewrite <- (vrk_S m); lia).
    all: pose proof (rdec_j_sim F F1 M1 i0 ltac:(lia) Hs) as Hs1;
         set (F2 := fst (fst (loop (rdec_j (off i0 0)) 0 i0 (F1, off i0 0, off 0 0)))) in *;
         pose proof (rdec_scale_sim F F2 _ i0 ltac:(lia) Hs1) as Hs2;
         set (F3 := fst (fst (fst (loop (rdec_scale (off i0 i0) (r i0 - r 0)%Z) 0 i0 (F2, off 0 0, off i0 0, off 0 0))))) in *;
         unfold dec_row; set (M3 := loop (dec_scale i0) 0 i0 (loop (dec_j i0) 0 i0 M1)) in *;
         rewrite (proj1 Hs2) by lia;
         destruct (M3 i0 i0 <=~ n0); [cbn; auto|];
         destruct (Nat.ltb_spec i0 (rn - 1)); cbn [fst snd].
    all: split; [exact Hs2|].
    all: replace (S i0 - 1) with i0 by lia.
    all: split; [intros; try lia; unfold off, vri; rewrite <- (vrk_S i0); lia|].
    all: split; [reflexivity|].
    all: intros; try lia; rewrite <- (vrk_S i0); lia.
  Qed.
End Model.
