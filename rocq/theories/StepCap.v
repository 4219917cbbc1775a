(** Network capacitance requests do not disturb the solution (C54). *)
From Coq Require Import Lia List Arith Bool ZArith.
From Verif Require Import Num Loops Ldu Assembly Islands IslandSolve StepModel Spec_Step StepFacts StepBudget StepConv StepThms.
Import ListNotations.

Section Solve.
  Context {T : Type} `{NT : Num T}.

  (** Solve depends on the matrix and right-hand side only, and whether it
      fails on the matrix only. *)
  Lemma solve_lower_rel (L : mat T) B B' x x' n : 1 <= n -> (forall i, i < n -> B i = B' i) ->
    forall i, i < n -> solve_lower L B x n i = solve_lower L B' x' n i.
  Proof.
    intros Hn HB. unfold solve_lower.
    pose proof (loop_rel (fun m (a b : nat -> T) => forall i, i < m -> a i = b i) (lower_k L B) (lower_k L B') (n - 1) 1
      (updv x 0 (B 0)) (updv x' 0 (B' 0))) as HL.
    intros i Hi. apply HL; [| |lia]; clear HL i Hi.
    - intros i Hi. replace i with 0 by lia. rewrite !updv_eq. apply HB. lia.
    - intros k a b Hk Hab. unfold lower_k.
      pose proof (loop_rel (fun _ (a b : nat -> T) => forall i, i < S k -> a i = b i)
        (fun i x => updv x k (x k -~ x i *~ L k i)) (fun i x => updv x k (x k -~ x i *~ L k i)) k 0
        (updv a k (B k)) (updv b k (B' k))) as HL.
      apply HL; clear HL.
      + intros i Hi. destruct (Nat.eq_dec i k) as [->|]; [rewrite !updv_eq; apply HB; lia|].
        rewrite !updv_neq by assumption. apply Hab. lia.
      + intros j p q Hj Hpq i Hi. destruct (Nat.eq_dec i k) as [->|].
        * rewrite !updv_eq. rewrite !Hpq by lia. reflexivity.
        * rewrite !updv_neq by assumption. apply Hpq. lia.
  Qed.
  Lemma solve_rel (M : mat T) B B' x x' n : 1 <= n -> (forall i, i < n -> B i = B' i) ->
    match solve M B x n, solve M B' x' n with
    | inl y, inl y' => same_on n y y'
    | inr _, inr _ => True
    | _, _ => False
    end.
  Proof.
    intros Hn HB. unfold solve.
    pose proof (loopE_rel (fun _ (a b : nat -> T) => forall i, i < n -> a i = b i) (fun _ _ => True)
      (diag_k M) (diag_k M) n 0 (solve_lower M B x n) (solve_lower M B' x' n)
      (solve_lower_rel M B B' x x' n Hn HB)) as HL.
    match type of HL with ?A -> _ => assert (HA : A) end.
    { intros k a b Hk Hab. unfold diag_k. destruct (M k k ==~ n0); [exact I|].
      intros i Hi. destruct (Nat.eq_dec i k) as [->|]; [rewrite !updv_eq; now rewrite Hab|].
      rewrite !updv_neq by assumption. now apply Hab. }
    specialize (HL HA). clear HA.
    destruct (loopE (diag_k M) 0 n (solve_lower M B x n)) as [y|e], (loopE (diag_k M) 0 n (solve_lower M B' x' n)) as [y'|e'];
      try contradiction; [|exact I].
    unfold solve_upper, same_on.
    pose proof (loop_rel (fun _ (a b : nat -> T) => forall i, i < n -> a i = b i)
      (fun m x => let k := n - 2 - m in upper_k M n k (updv x k (x k)))
      (fun m x => let k := n - 2 - m in upper_k M n k (updv x k (x k))) (n - 1) 0
      (updv y (n - 1) (y (n - 1))) (updv y' (n - 1) (y' (n - 1)))) as HU.
    apply HU; clear HU.
    - intros i Hi. destruct (Nat.eq_dec i (n - 1)) as [->|]; [rewrite !updv_eq; apply HL; lia|].
      rewrite !updv_neq by assumption. now apply HL.
    - intros m a b Hm Hab. cbv zeta. set (k := n - 2 - m). unfold upper_k.
      pose proof (loop_rel (fun _ (a b : nat -> T) => forall i, i < n -> a i = b i)
        (fun i x => updv x k (x k -~ x i *~ M k i)) (fun i x => updv x k (x k -~ x i *~ M k i)) (n - (k + 1)) (k + 1)
        (updv a k (a k)) (updv b k (b k))) as HL2.
      apply HL2; clear HL2.
      + intros i Hi. destruct (Nat.eq_dec i k) as [->|]; [rewrite !updv_eq; apply Hab; lia|].
        rewrite !updv_neq by assumption. now apply Hab.
      + intros j p q Hj Hpq i Hi. destruct (Nat.eq_dec i k) as [->|].
        * rewrite !updv_eq. rewrite !Hpq by lia. reflexivity.
        * rewrite !updv_neq by assumption. now apply Hpq.
  Qed.
End Solve.

Section Cap.
  Context {T : Type} `{NT : Num T} {E : Type}.
  Variable N : net T E.
  Local Notation n := (nn N).
  Local Notation st := (state T E).

  (** Perturbation leaves the matrix and sources; it fails exactly when the
      plain solve would. *)
  Definition solvable (M : mat T) : bool := match solve M (fun _ => n0) (fun _ => n0) n with inl _ => true | inr _ => false end.
  Lemma solve_solvable M B x : 1 <= n -> match solve M B x n with inl _ => solvable M = true | inr _ => solvable M = false end.
  Proof.
    intros Hn. unfold solvable.
    (* failure of the diagonal pass does not depend on the vectors *)
    assert (HF : forall x x', match loopE (diag_k M) 0 n x, loopE (diag_k M) 0 n x' with inl _, inl _ => True | inr _, inr _ => True | _, _ => False end).
    { intros a b. apply (loopE_rel (fun _ _ _ => True) (fun _ _ => True)); [exact I|].
      intros k c d _ _. unfold diag_k. destruct (M k k ==~ n0); exact I. }
    unfold solve. specialize (HF (solve_lower M B x n) (solve_lower M (fun _ => n0) (fun _ => n0) n)).
    destruct (loopE (diag_k M) 0 n (solve_lower M B x n)), (loopE (diag_k M) 0 n (solve_lower M (fun _ => n0) (fun _ => n0) n));
      try contradiction; reflexivity.
  Qed.

  Definition matches (s s' : st) : Prop := sA s' = sA s /\ (forall i, sSrc s' i = sSrc s i).

  (** Requests as of [w0] are still as they were; processed nodes have either a
      perturbed potential or zero. *)
  Lemma perturb_spec s : 1 <= n ->
    match perturb N s with
    | Fine s' => matches s s' /\ w_req (sWorld s') = w_req (sWorld s) /\
        forall i, i < n ->
          if neps <~ w_req (sWorld s) i
          then exists x x0 B, (forall j, B j = if Nat.eqb j i then sSrc s i +~ w_req (sWorld s) i else sSrc s j) /\
                 solve (sA s) B x0 n = inl x /\ w_cap (sWorld s') i = x i /\
                 (forall j, j < n -> w_ndp (sWorld s') i j = x j)
          else w_cap (sWorld s') i = n0
    | Limit _ => False
    | Numeric _ => solvable (sA s) = false
    end.
  Proof.
    intros Hn. unfold perturb.
    pose proof (loop_inv (fun m o => match o with
      | Fine s' => matches s s' /\ w_req (sWorld s') = w_req (sWorld s) /\
          forall i, i < m ->
          if neps <~ w_req (sWorld s) i
          then exists x x0 B, (forall j, B j = if Nat.eqb j i then sSrc s i +~ w_req (sWorld s) i else sSrc s j) /\
                 solve (sA s) B x0 n = inl x /\ w_cap (sWorld s') i = x i /\
                 (forall j, j < n -> w_ndp (sWorld s') i j = x j)
          else w_cap (sWorld s') i = n0
      | Limit _ => False
      | Numeric _ => solvable (sA s) = false end) (perturb_node N) n 0 (Fine s)) as HL.
    apply HL; clear HL.
    - split; [split; [reflexivity|intros; reflexivity]|]. split; [reflexivity|]. intros; lia.
    - intros i o Hi Ho. destruct o as [s0|s0|s0]; [|contradiction|exact Ho].
      destruct Ho as ((HA & HS) & HR & HC). cbn [perturb_node bind]. rewrite HR.
      destruct (neps <~ w_req (sWorld s) i) eqn:Hreq.
      + set (s1 := set_sSrc _ s0). unfold solve_step.
        change (sA s1) with (sA s0). change (sP s1) with (sP s0). rewrite HA.
        pose proof (solve_solvable (sA s) (sSrc s1) (sP s0) Hn) as HSS.
        destruct (solve (sA s) (sSrc s1) (sP s0) n) as [x|[k x]] eqn:Hx; cbn [bind]; [|exact HSS].
        split; [split; [exact HA|]|split; [exact HR|]].
        * intros j. cbn. unfold updv. destruct (Nat.eqb_spec j i) as [->|]; [apply HS|].
          destruct (Nat.eqb_spec j i); [contradiction|apply HS].
        * intros j Hj. destruct (Nat.eq_dec j i) as [->|Hne].
          -- rewrite Hreq. exists x, (sP s0), (sSrc s1). split; [|split; [exact Hx|]].
             ++ intros j. unfold s1. cbn. unfold updv. destruct (Nat.eqb_spec j i) as [->|]; [now rewrite HS|apply HS].
             ++ cbn. rewrite updv_eq. split; [reflexivity|]. intros j Hj'. rewrite Nat.eqb_refl. now apply copy_vec_in.
          -- specialize (HC j ltac:(lia)). cbn. rewrite updv_neq by assumption.
             destruct (Nat.eqb_spec j i); [contradiction|]. exact HC.
      + split; [split; [exact HA|exact HS]|]. split; [exact HR|]. intros j Hj.
        cbn. destruct (Nat.eq_dec j i) as [->|Hne]; [rewrite Hreq; apply updv_eq|].
        rewrite updv_neq by assumption. apply HC. lia.
  Qed.

  (** What netcap does with the perturbed potentials. *)
  Lemma netcap_spec dt s :
    let s' := netcap N dt s in
    sP s' = sP s /\ (forall i, i < n ->
      if neps <~ w_req (sWorld s) i
      then w_req (sWorld s') i = n0 /\
           w_cap (sWorld s') i = (let d := nabs (w_cap (sWorld s) i -~ sP s i) in
                                  if neps <~ d then dt *~ w_req (sWorld s) i /~ d else n0) /\
           (forall j, j < n -> w_ndp (sWorld s') i j = w_ndp (sWorld s) i j -~ sP s j)
      else w_req (sWorld s') i = w_req (sWorld s) i /\ w_cap (sWorld s') i = w_cap (sWorld s) i).
  Proof.
    cbv zeta. unfold netcap.
    pose proof (loop_inv (fun m s' => sP s' = sP s /\
      (forall i, m <= i -> w_req (sWorld s') i = w_req (sWorld s) i /\ w_cap (sWorld s') i = w_cap (sWorld s) i /\
                           (forall j, w_ndp (sWorld s') i j = w_ndp (sWorld s) i j)) /\
      (forall i, i < m ->
      if neps <~ w_req (sWorld s) i
      then w_req (sWorld s') i = n0 /\
           w_cap (sWorld s') i = (let d := nabs (w_cap (sWorld s) i -~ sP s i) in
                                  if neps <~ d then dt *~ w_req (sWorld s) i /~ d else n0) /\
           (forall j, j < n -> w_ndp (sWorld s') i j = w_ndp (sWorld s) i j -~ sP s j)
      else w_req (sWorld s') i = w_req (sWorld s) i /\ w_cap (sWorld s') i = w_cap (sWorld s) i))
      (netcap_node N dt) n 0 s) as HL.
    destruct HL as (A & _ & B); [| |split; assumption].
    - repeat split; auto; intros; lia.
    - intros i s' Hi (A & B & C). unfold netcap_node.
      destruct (B i (le_n _)) as (B1 & B2 & B3). rewrite B1, B2, A.
      destruct (neps <~ w_req (sWorld s) i) eqn:Hq.
      + split; [exact A|]. split.
        * intros j Hj. destruct (B j ltac:(lia)) as (J1 & J2 & J3). cbn. rewrite !updv_neq by lia.
          destruct (Nat.eqb_spec j i); [lia|]. auto.
        * intros j Hj. cbn. destruct (Nat.eq_dec j i) as [->|Hne].
          -- rewrite Hq, !updv_eq, Nat.eqb_refl. split; [reflexivity|]. split; [reflexivity|].
             intros q Hqn. clear C.
             pose proof (loop_inv (fun m (v : nat -> T) => (forall a, a < m -> v a = w_ndp (sWorld s) i a -~ sP s a) /\
               (forall a, m <= a -> v a = w_ndp (sWorld s) i a)) (fun j v => updv v j (v j -~ sP s j)) n 0 (w_ndp (sWorld s') i)) as HI.
             apply HI; [split; [intros; lia|intros; apply B3]| |exact Hqn].
             intros a v Ha (V1 & V2). split.
             ++ intros b Hb. destruct (Nat.eq_dec b a) as [->|]; [rewrite updv_eq; now rewrite V2|]. rewrite updv_neq by assumption. apply V1. lia.
             ++ intros b Hb. rewrite updv_neq by lia. apply V2. lia.
          -- specialize (C j ltac:(lia)). rewrite !updv_neq by assumption.
             destruct (Nat.eqb_spec j i); [contradiction|]. exact C.
      + split; [exact A|]. split; [intros j Hj; apply B; lia|]. intros j Hj.
        destruct (Nat.eq_dec j i) as [->|]; [rewrite Hq; auto|]. apply C. lia.
  Qed.

  (** States that differ only in capacitance bookkeeping. *)
  Definition alike (s t : st) : Prop :=
    sA s = sA t /\ sSrc s = sSrc t /\ sP s = sP t /\ sMin s = sMin t /\ sRebuild s = sRebuild t /\ sIvec s = sIvec t /\
    sLastDecomp s = sLastDecomp t /\ w_env (sWorld s) = w_env (sWorld t).

  Lemma clean_same (s t : st) : same_on n (sP s) (sP t) -> same_on n (sP (clean N s)) (sP (clean N t)).
  Proof.
    intros H. unfold clean, same_on. cbn [set_sP sP].
    pose proof (loop_rel (fun _ (a b : nat -> T) => forall i, i < n -> a i = b i)
      (fun i v => if nabs (v i) <~ neps then updv v i n0 else v) (fun i v => if nabs (v i) <~ neps then updv v i n0 else v)
      n 0 (sP s) (sP t) H) as HL.
    apply HL. intros k a b Hk Hab. rewrite <- (Hab k) by lia. destruct (nabs (a k) <~ neps); [|exact Hab].
    intros i Hi. destruct (Nat.eq_dec i k) as [->|]; [now rewrite !updv_eq|]. rewrite !updv_neq by assumption. now apply Hab.
  Qed.

  Definition tail (u : input T) (s4 : st) : outcome :=
    bind (perturb N s4) (fun s5 => bind (solve_step N s5) (fun s6 => Fine (netcap N (i_dt u) (clean N s6)))).
  Definition same_outcome (o o' : @outcome T E) : Prop :=
    match o, o' with
    | Fine s, Fine t => same_on n (sP s) (sP t)
    | Limit _, Limit _ => True
    | Numeric _, Numeric _ => True
    | _, _ => False
    end.

  Lemma tail_alike u s t : 1 <= n -> sA s = sA t -> (forall i, i < n -> sSrc s i = sSrc t i) ->
    same_outcome (tail u s) (tail u t).
  Proof.
    intros Hn HA HS. unfold tail.
    pose proof (perturb_spec s Hn) as P1. pose proof (perturb_spec t Hn) as P2.
    assert (HT : forall r0 r, matches r0 r -> match solve_step N r with Fine _ => solvable (sA r0) = true | Limit _ => False | Numeric _ => solvable (sA r0) = false end).
    { intros r0 r (X & _). unfold solve_step. pose proof (solve_solvable (sA r) (sSrc r) (sP r) Hn) as Y. rewrite X in Y.
      rewrite X in *. destruct (solve _ _ _ _) as [?|[? ?]]; exact Y. }
    destruct (perturb N s) as [s5|s5|s5]; [|contradiction|].
    - destruct P1 as (M1 & _). pose proof (HT s s5 M1) as T1.
      destruct (perturb N t) as [t5|t5|t5]; [|contradiction|].
      + destruct P2 as (M2 & _). pose proof (HT t t5 M2) as T2. cbn [bind].
        assert (HR := solve_rel (sA s5) (sSrc s5) (sSrc t5) (sP s5) (sP t5) n Hn).
        destruct M1 as (A1 & S1), M2 as (A2 & S2).
        assert (HB : forall i, i < n -> sSrc s5 i = sSrc t5 i) by (intros i Hi; rewrite S1, S2; now apply HS).
        specialize (HR HB). unfold solve_step in *.
        replace (sA t5) with (sA s5) in * by congruence.
        destruct (solve (sA s5) (sSrc s5) (sP s5) n) as [x|[k x]], (solve (sA s5) (sSrc t5) (sP t5) n) as [y|[k' y]]; try contradiction; cbn [bind same_outcome]; [|exact I].
        destruct (netcap_spec (i_dt u) (clean N (set_sP x (tell (CSolve (sA s5) (w_env (sWorld s5))) s5)))) as (-> & _).
        match goal with |- context [netcap N (i_dt u) (clean N ?z)] => destruct (netcap_spec (i_dt u) (clean N z)) as (-> & _) end.
        apply clean_same. exact HR.
      + cbn [bind]. rewrite <- HA in P2. rewrite P2 in T1. destruct (solve_step N s5) as [z|z|z]; [discriminate|contradiction|exact I].
    - destruct (perturb N t) as [t5|t5|t5]; [|contradiction|exact I].
      destruct P2 as (M2 & _). pose proof (HT t t5 M2) as T2. cbn [bind]. rewrite <- HA, P1 in T2.
      destruct (solve_step N t5) as [z|z|z]; [discriminate|contradiction|exact I].
  Qed.

  Theorem requests_do_not_disturb u s t : 1 <= n -> alike s t ->
    same_outcome (build_and_solve N u s) (build_and_solve N u t).
  Proof.
    intros Hn (HA & HS & HP & HM & HR & HI & HD & HE). unfold build_and_solve.
    assert (H1 : alike (rebuild_source N s) (rebuild_source N t)).
    { unfold rebuild_source. rewrite HE, HS. destruct (build_source _ _ _); repeat split; assumption. }
    set (s1 := rebuild_source N s) in *. set (t1 := rebuild_source N t) in *. clearbody s1 t1.
    clear s t HA HS HP HM HR HI HD HE.
    assert (HR : sRebuild s1 = sRebuild t1) by apply H1. rewrite <- HR.
    set (need := sRebuild s1 || i_sor u || i_debug u). clearbody need.
    set (s2 := if need then _ else s1). set (t2 := if need then _ else t1).
    assert (H2 : alike s2 t2).
    { unfold s2, t2. destruct need; [|exact H1]. destruct H1 as (HA & HS & HP & HM & HR' & HI & HD & HE).
      unfold rebuild_matrix. rewrite HE, HA, HI. destruct (i_island u); repeat split; assumption. }
    clearbody s2 t2. clear s1 t1 H1 HR. destruct H2 as (HA & HS & HP & HM & HR & HI & HD & HE).
    rewrite <- HA, <- HS, <- HP.
    assert (Hend : forall s4 t4 : st, sA s4 = sA t4 -> sSrc s4 = sSrc t4 -> sP s4 = sP t4 ->
      same_outcome (if is_normal (i_mode u) then tail u s4 else Fine s4) (if is_normal (i_mode u) then tail u t4 else Fine t4)).
    { intros s4 t4 X Y Z. destruct (is_normal (i_mode u)); [apply tail_alike; [exact Hn|exact X|now rewrite Y]|].
      cbn. rewrite Z. apply same_refl. }
    assert (Hmid : forall s3 t3 : st, sA s3 = sA t3 -> sSrc s3 = sSrc t3 -> sP s3 = sP t3 -> sIvec s3 = sIvec t3 -> sLastDecomp s3 = sLastDecomp t3 ->
      same_outcome
       (bind (if need && is_normal (i_mode u) then
              if Nat.ltb (sLastDecomp s3) (decomp_limit N) then
                decompose_step N (i_island u)
                  (tell CDecomp (set_cDecomp (cDecomp s3 + 1) (set_sLastDecomp (sLastDecomp s3 + 1) s3)))
              else Limit s3
            else Fine s3)
           (fun s4 => if is_normal (i_mode u) then tail u s4 else Fine s4))
       (bind (if need && is_normal (i_mode u) then
              if Nat.ltb (sLastDecomp t3) (decomp_limit N) then
                decompose_step N (i_island u)
                  (tell CDecomp (set_cDecomp (cDecomp t3 + 1) (set_sLastDecomp (sLastDecomp t3 + 1) t3)))
              else Limit t3
            else Fine t3)
           (fun s4 => if is_normal (i_mode u) then tail u s4 else Fine s4))).
    { intros s3 t3 X Y Z V W. rewrite <- W. destruct (need && is_normal (i_mode u)); [|cbn [bind]; now apply Hend].
      destruct (Nat.ltb (sLastDecomp s3) (decomp_limit N)); [|exact I].
      unfold decompose_step. cbn [tell set_sCalls sA sIvec set_cDecomp set_sLastDecomp]. rewrite <- X, <- V.
      destruct (i_island u).
      1,2: destruct (decompose n (sA s3)) as [M|[k M]]; cbn [bind]; [now apply Hend|exact I].
      destruct (decompose_islands n (sIvec s3) (sA s3)) as [M|[[k k'] M]]; cbn [bind]; [now apply Hend|exact I]. }
    destruct (i_sor u && is_normal (i_mode u)).
    - destruct (sor N (sP s2) (sA s2) (sSrc s2)) as [it x]. destruct (it <? 0)%Z eqn:Hit; rewrite Hit.
      + apply Hmid; try assumption. cbn. now rewrite HM.
      + cbn. apply same_refl.
    - apply Hmid; assumption.
  Qed.

  (** When the direct solver ran, every request is answered and cleared, and
      nodes without a request read zero. *)
  Theorem requests_answered u s s' : 1 <= n -> i_mode u = NORMAL -> i_sor u = false ->
    build_and_solve N u s = Fine s' -> (neps <~ n0) = false ->
    forall i, i < n -> (neps <~ w_req (sWorld s') i) = false /\
      ((neps <~ w_req (sWorld s) i) = false -> w_cap (sWorld s') i = n0) /\
      ((neps <~ w_req (sWorld s) i) = true -> forall j, j < n ->
         exists x0 x B, solve (sA s') B x0 n = inl x /\
           (forall k, B k = if Nat.eqb k i then sSrc s' i +~ w_req (sWorld s) i else sSrc s' k) /\
           w_ndp (sWorld s') i j = x j -~ sP s' j /\
           w_cap (sWorld s') i = (let d := nabs (x i -~ sP s' i) in
             if neps <~ d then i_dt u *~ w_req (sWorld s) i /~ d else n0)).
  Proof.
    intros Hn Hm Hso HB Heps. unfold build_and_solve in HB. rewrite Hm, Hso in HB.
    cbn [is_normal andb orb Z.ltb Z.compare] in HB.
    set (s1 := rebuild_source N s) in HB. 
    assert (W1 : w_req (sWorld s1) = w_req (sWorld s)) by (unfold s1, rebuild_source; destruct (build_source _ _ _); reflexivity).
    clearbody s1. set (need := sRebuild s1 || false || i_debug u) in HB. clearbody need.
    set (s2 := if need then _ else s1) in HB.
    assert (W2 : w_req (sWorld s2) = w_req (sWorld s)).
    { unfold s2. rewrite <- W1. destruct need; [|reflexivity]. unfold rebuild_matrix. destruct (i_island u); reflexivity. }
    clearbody s2.
    assert (HT : exists s4, tail u s4 = Fine s' /\ w_req (sWorld s4) = w_req (sWorld s)).
    { destruct (need && true); [|exists s2; auto].
      destruct (Nat.ltb _ _); [|discriminate]. unfold decompose_step in HB.
      destruct (i_island u).
      1,2: destruct (decompose n _) as [M|[k M]]; [|discriminate]; cbn [bind] in HB; eexists; split; [exact HB|exact W2].
      destruct (decompose_islands n _ _) as [M|[[k k'] M]]; [|discriminate]; cbn [bind] in HB. eexists; split; [exact HB|exact W2]. }
    clear HB. destruct HT as (s4 & HT & W4). unfold tail in HT.
    pose proof (perturb_spec s4 Hn) as P. destruct (perturb N s4) as [s5|s5|s5]; [|discriminate..].
    destruct P as ((A5 & S5) & R5 & C5). cbn [bind] in HT. unfold solve_step in HT.
    destruct (solve (sA s5) (sSrc s5) (sP s5) n) as [x|[k x]]; [|discriminate]. cbn [bind] in HT. injection HT. intros Hs'. clear HT.
    set (s6 := clean N _) in Hs'. destruct (netcap_spec (i_dt u) s6) as (NP & NC). 
    assert (HAS : sA s' = sA s4 /\ forall i, sSrc s' i = sSrc s4 i).
    { rewrite <- Hs'. split.
      - rewrite <- A5. unfold netcap. rewrite (loop_pres (@sA T E)); [reflexivity|].
        intros i z. unfold netcap_node. destruct (neps <~ w_req (sWorld z) i); reflexivity.
      - intros i. rewrite <- S5. unfold netcap. rewrite (loop_pres (@sSrc T E)); [reflexivity|].
        intros i' z. unfold netcap_node. destruct (neps <~ w_req (sWorld z) i'); reflexivity. }
    assert (W6 : sWorld s6 = sWorld s5) by reflexivity.
    rewrite Hs' in NP, NC. clearbody s6. destruct HAS as (A' & S').
    intros i Hi. specialize (NC i Hi). specialize (C5 i Hi). rewrite W6 in NC. rewrite W4 in *. rewrite R5 in *.
    destruct (neps <~ w_req (sWorld s) i) eqn:Hq.
    - destruct NC as (N1 & N2 & N3). split; [now rewrite N1|]. split; [discriminate|]. intros _ j Hj.
      destruct C5 as (y & x0 & B & C1 & C2 & C3 & C4). exists x0, y, B. rewrite A'. split; [exact C2|].
      split; [intros k; rewrite !S'; apply C1|]. rewrite NP. split; [rewrite N3 by exact Hj; now rewrite C4|].
      rewrite N2, C3. reflexivity.
    - destruct NC as (N1 & N2). split; [now rewrite N1|]. split; [intros _; now rewrite N2|discriminate].
  Qed.
End Cap.
