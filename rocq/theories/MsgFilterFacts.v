(** * Facts about the rate filter *)
From Coq Require Import Floats List ZArith Bool Lia Reals Lra String Ascii DecimalString DecimalZ Sorting Permutation.
From Verif Require Import Num Ord Round MsgQueue MsgFilter Spec_Filter.
Import ListNotations.
Local Open Scope nat_scope.

(** ** The order of the keys *)

Lemma str_lt_trans : forall a b c, String.ltb a b = true -> String.ltb b c = true -> String.ltb a c = true.
Proof.
  unfold String.ltb.
  induction a as [|x a IH]; intros [|y b] [|z c]; cbn [String.compare]; auto; try discriminate.
  unfold Ascii.compare.
  destruct (N.compare_spec (N_of_ascii x) (N_of_ascii y)),
           (N.compare_spec (N_of_ascii y) (N_of_ascii z)),
           (N.compare_spec (N_of_ascii x) (N_of_ascii z)); auto; try discriminate; try lia.
  intros H2 H3. specialize (IH b c). destruct (String.compare a b), (String.compare b c); try discriminate.
  auto.
Qed.

Lemma str_lt_irrefl : forall a, String.ltb a a = false.
Proof.
  intros. unfold String.ltb. pose proof (String.compare_antisym a a).
  destruct (String.compare a a); auto. discriminate.
Qed.

Lemma str_lt_total : forall a b, String.ltb a b = false -> a <> b -> String.ltb b a = true.
Proof.
  intros a b H D. unfold String.ltb in *. rewrite String.compare_antisym.
  destruct (String.compare a b) eqn:E; cbn [CompOpp]; auto; try discriminate.
  apply String.compare_eq_iff in E. contradiction.
Qed.

Section Keys.
  Context {T : Type}.
  Implicit Type m : list (string * list T).

  (** The keys are in strictly increasing order. *)
  Definition sorted m : Prop := StronglySorted (fun a b => String.ltb (fst a) (fst b) = true) m.

  Lemma find_in : forall k m v, map_find k m = Some v -> In (k, v) m.
  Proof.
    induction m as [|[k' v'] r IH]; cbn [map_find]; intros v E; [discriminate|].
    destruct (String.eqb_spec k k') as [->|D].
    - injection E as ->. now left.
    - right. auto.
  Qed.

  Lemma find_none : forall k m, map_find k m = None <-> ~ In k (map fst m).
  Proof.
    induction m as [|[k' v'] r IH]; cbn [map_find map fst In]; [tauto|].
    destruct (String.eqb_spec k k') as [->|D].
    - split; [discriminate|]. intro X. now elim X; left.
    - rewrite IH. intuition congruence.
  Qed.

  Lemma find_unique : forall k v m, NoDup (map fst m) -> In (k, v) m -> map_find k m = Some v.
  Proof.
    induction m as [|[k' v'] r IH]; cbn [map_find map fst In]; intros ND I; [contradiction|].
    inversion ND as [|? ? N1 N2]; subst. destruct (String.eqb_spec k k') as [->|D].
    - destruct I as [I|I]; [congruence|]. elim N1. apply (in_map fst) in I. exact I.
    - destruct I as [I|I]; [congruence|]. auto.
  Qed.

  Lemma sorted_nodup : forall m, sorted m -> NoDup (map fst m).
  Proof.
    induction m as [|[k v] r IH]; intros S; cbn [map fst]; [constructor|].
    inversion S as [|? ? S1 S2]; subst. constructor; [|now apply IH].
    intro I. apply in_map_iff in I. destruct I as ([k' v'] & E & I). cbn [fst] in E. subst k'.
    rewrite Forall_forall in S2. specialize (S2 _ I). cbn [fst] in S2.
    now rewrite str_lt_irrefl in S2.
  Qed.

  Lemma insert_perm : forall k v m, Permutation (map_insert k v m) ((k, v) :: m).
  Proof.
    induction m as [|[k' v'] r IH]; cbn [map_insert]; [apply Permutation_refl|].
    destruct (String.ltb k k'); [apply Permutation_refl|].
    eapply Permutation_trans; [apply perm_skip, IH | apply perm_swap].
  Qed.

  Lemma insert_sorted : forall k v m, sorted m -> map_find k m = None -> sorted (map_insert k v m).
  Proof.
    induction m as [|[k' v'] r IH]; intros S F; cbn [map_insert].
    - repeat constructor.
    - cbn [map_find] in F. destruct (String.eqb_spec k k') as [->|D]; [discriminate F|].
      inversion S as [|? ? S1 S2]; subst. destruct (String.ltb k k') eqn:L.
      + constructor; [assumption|]. constructor; [exact L|].
        rewrite Forall_forall in S2 |- *. intros x I. specialize (S2 x I). cbn [fst] in *.
        eapply str_lt_trans; eauto.
      + constructor; [now apply IH|].
        rewrite Forall_forall in S2 |- *. intros x I.
        apply (Permutation_in _ (insert_perm k v r)) in I. destruct I as [<-|I].
        * cbn [fst]. apply str_lt_total; [assumption | congruence].
        * now apply S2.
  Qed.

  Lemma insert_find : forall k v m k', map_find k m = None ->
    map_find k' (map_insert k v m) = if String.eqb k' k then Some v else map_find k' m.
  Proof.
    induction m as [|[k0 v0] r IH]; intros k' F; cbn [map_insert map_find].
    - destruct (String.eqb_spec k' k); reflexivity.
    - cbn [map_find] in F. destruct (String.eqb_spec k k0) as [->|D]; [discriminate F|].
      destruct (String.ltb k k0); cbn [map_find].
      + reflexivity.
      + rewrite IH by assumption. destruct (String.eqb_spec k' k0) as [->|D'].
        * destruct (String.eqb_spec k0 k); [congruence | reflexivity].
        * reflexivity.
  Qed.

  Lemma update_keys : forall k v m, map fst (map_update k v m) = map fst m.
  Proof.
    induction m as [|[k' v'] r IH]; cbn [map_update]; [reflexivity|].
    destruct (String.eqb k k'); cbn [map fst]; congruence.
  Qed.

  Lemma update_find : forall k v m k', map_find k m <> None ->
    map_find k' (map_update k v m) = if String.eqb k' k then Some v else map_find k' m.
  Proof.
    induction m as [|[k0 v0] r IH]; intros k' F; cbn [map_update map_find] in *; [congruence|].
    destruct (String.eqb_spec k k0) as [->|D]; cbn [map_find].
    - destruct (String.eqb_spec k' k0); reflexivity.
    - rewrite IH by assumption. destruct (String.eqb_spec k' k0) as [->|D'].
      + destruct (String.eqb_spec k0 k); [congruence | reflexivity].
      + reflexivity.
  Qed.

  Lemma map_sorted : forall (l1 l2 : list (string * list T)),
    map fst l1 = map fst l2 -> sorted l1 -> sorted l2.
  Proof.
    induction l1 as [|x l1 IH]; intros [|y l2] E S; cbn [map] in E; try discriminate E; [constructor|].
    injection E as E1 E2. inversion S as [|? ? S1 S2]; subst. constructor; [now apply IH|].
    rewrite Forall_forall in S2 |- *. intros z I.
    apply (in_map fst) in I. rewrite <- E2 in I. apply in_map_iff in I.
    destruct I as (w & Ew & Iw). specialize (S2 w Iw). rewrite <- E1, <- Ew. exact S2.
  Qed.

  Lemma update_sorted : forall k v m, sorted m -> sorted (map_update k v m).
  Proof. intros. eapply map_sorted; [|exact H]. now rewrite update_keys. Qed.

  Lemma erase_find_other : forall k k' m, k <> k' -> map_find k (map_erase k' m) = map_find k m.
  Proof.
    induction m as [|[k0 v0] r IH]; intros D; cbn [map_erase map_find]; [reflexivity|].
    destruct (String.eqb_spec k' k0) as [->|D'].
    - destruct (String.eqb_spec k k0); [contradiction | reflexivity].
    - cbn [map_find]. now rewrite IH.
  Qed.

  Lemma erase_incl : forall k m x, In x (map_erase k m) -> In x m.
  Proof.
    induction m as [|[k0 v0] r IH]; intros x I; cbn [map_erase] in I; [contradiction|].
    destruct (String.eqb k k0); [now right|]. destruct I as [<-|I]; [now left | right; auto].
  Qed.

  Lemma erase_sorted : forall k m, sorted m -> sorted (map_erase k m).
  Proof.
    induction m as [|[k0 v0] r IH]; intros S; cbn [map_erase]; [constructor|].
    inversion S as [|? ? S1 S2]; subst. destruct (String.eqb k k0); [assumption|].
    constructor; [now apply IH|]. rewrite Forall_forall in S2 |- *.
    intros x I. apply S2. eapply erase_incl; eauto.
  Qed.

  Lemma erase_find_same : forall k m, NoDup (map fst m) -> map_find k (map_erase k m) = None.
  Proof.
    induction m as [|[k0 v0] r IH]; intros ND; cbn [map_erase]; [reflexivity|].
    inversion ND as [|? ? N1 N2]; subst. destruct (String.eqb_spec k k0) as [->|D].
    - now apply find_none.
    - cbn [map_find]. destruct (String.eqb_spec k k0); [contradiction | auto].
  Qed.

  Lemma erase_length : forall k v m, In (k, v) m -> S (List.length (map_erase k m)) = List.length m.
  Proof.
    induction m as [|[k0 v0] r IH]; intros I; cbn [map_erase List.length]; [contradiction|].
    destruct (String.eqb_spec k k0) as [->|D]; [reflexivity|].
    destruct I as [I|I]; [congruence|]. cbn [List.length]. now rewrite IH.
  Qed.

  (** Every record has at least one time. *)
  Definition nonempty m : Prop := Forall (fun e => snd e <> []) m.

  Lemma back_some : forall (l : list T), l <> [] -> exists x, back l = Ret x.
  Proof.
    induction l as [|a [|b r] IH]; intro H; cbn [back]; [congruence | eauto |].
    apply IH. discriminate.
  Qed.

  Lemma back_app : forall (l : list T) x, back (l ++ [x]) = Ret x.
  Proof.
    induction l as [|a [|b r] IH]; intro x; cbn [app back] in *; auto.
  Qed.
End Keys.

Section Evict.
  Context {T : Type} {N : Num T}.
  Implicit Type m : list (string * list T).

  Lemma oldest_defined : forall m o, snd o <> [] -> nonempty m ->
    exists e, oldest_of o m = Ret e /\ In e (o :: m) /\ snd e <> [].
  Proof.
    induction m as [|e m IH]; intros o Ho F; cbn [oldest_of].
    - exists o. repeat split; auto. now left.
    - inversion F as [|? ? F1 F2]; subst.
      destruct (back_some (snd e) F1) as (a & ->). destruct (back_some (snd o) Ho) as (b & ->).
      cbn [bindO]. destruct (IH (if a <~ b then e else o)) as (x & E & I & X).
      + now destruct (a <~ b).
      + assumption.
      + exists x. split; [exact E|]. split; [|exact X].
        destruct I as [I|I]; [|now right; right].
        destruct (a <~ b); subst; [right; now left | now left].
  Qed.

  (** One eviction from a history of at least two records. *)
  Lemma purge_two : forall m, nonempty m -> 2 <= List.length m ->
    exists m' k v, purge_messages m = Ret m' /\ m' = map_erase k m /\ In (k, v) (tl m).
  Proof.
    intros m F L. destruct m as [|x [|o r]]; cbn [List.length] in L; try lia.
    inversion F as [|? ? F1 F2]; subst. inversion F2 as [|? ? F3 F4]; subst.
    cbn [purge_messages].
    destruct (oldest_defined (o :: r) o F3 F2) as ([k v] & E & I & X).
    rewrite E. cbn [bindO fst]. eexists; exists k, v. split; [reflexivity|]. split; [reflexivity|].
    cbn [tl]. destruct I as [<-|I]; [now left | exact I].
  Qed.

  Lemma make_room_ok : forall fuel h m, (2 <= h)%Z -> sorted m -> nonempty m ->
    List.length m <= fuel ->
    exists m', make_room fuel h m = Ret m' /\ sorted m' /\ nonempty m' /\
      (Z.of_nat (List.length m') < h)%Z /\
      (forall k, map_find k m' = map_find k m \/ map_find k m' = None) /\
      hd_error m' = hd_error m.
  Proof.
    induction fuel as [|fuel IH]; intros h m Hh S F L; cbn [make_room].
    - destruct (Z.geb_spec (Z.of_nat (List.length m)) h); [lia|].
      exists m. repeat split; auto.
    - destruct (Z.geb_spec (Z.of_nat (List.length m)) h).
      + destruct (purge_two m F ltac:(lia)) as (m' & k & v & -> & -> & I). cbn [bindO].
        assert (I' : In (k, v) m) by (destruct m; [contradiction | now right]).
        assert (LE := erase_length _ _ _ I').
        destruct (IH h (map_erase k m)) as (m2 & E2 & S2 & F2 & L2 & K2 & H2); auto.
        * now apply erase_sorted.
        * unfold nonempty in *. rewrite Forall_forall in F |- *.
          intros x X. apply F. eapply erase_incl; eauto.
        * lia.
        * exists m2. repeat split; auto.
          -- intro k'. destruct (K2 k') as [K|K]; [|auto].
             destruct (String.eqb_spec k' k) as [->|D].
             ++ right. rewrite K. apply erase_find_same. now apply sorted_nodup.
             ++ left. rewrite K. now apply erase_find_other.
          -- rewrite H2. destruct m as [|[k0 v0] r]; [contradiction|].
             cbn [tl] in I. cbn [map_erase]. destruct (String.eqb_spec k k0) as [->|D]; [|reflexivity].
             exfalso. inversion S as [|? ? S1 S3]; subst. rewrite Forall_forall in S3.
             specialize (S3 _ I). cbn [fst] in S3. now rewrite str_lt_irrefl in S3.
      + exists m. repeat split; auto.
  Qed.

  Lemma purge_some : forall m m1, nonempty m -> purge_messages m = Ret m1 -> m <> [] ->
    exists k v, m1 = map_erase k m /\ In (k, v) (tl m).
  Proof.
    intros m m1 F E D. destruct m as [|x [|y r]]; [contradiction | discriminate E |].
    destruct (purge_two (x :: y :: r) F ltac:(cbn [List.length]; lia)) as (m' & k & v & E' & -> & I).
    exists k, v. split; [congruence | exact I].
  Qed.

  Lemma erase_nonempty : forall k m, nonempty m -> nonempty (map_erase k m).
  Proof.
    intros k m F. unfold nonempty in *. rewrite Forall_forall in F |- *.
    intros x X. apply F. eapply erase_incl; eauto.
  Qed.

  Lemma make_room_keeps : forall fuel h m m', (1 <= h)%Z -> sorted m -> nonempty m ->
    make_room fuel h m = Ret m' ->
    sorted m' /\ nonempty m' /\ forall k, map_find k m' = map_find k m \/ map_find k m' = None.
  Proof.
    induction fuel as [|fuel IH]; intros h m m' Hh S F E; cbn [make_room] in E.
    - destruct (Z.of_nat (List.length m) >=? h)%Z; [discriminate E|].
      assert (m = m') by congruence. subst. auto.
    - destruct (Z.geb_spec (Z.of_nat (List.length m)) h).
      + destruct (purge_messages m) as [m1| |] eqn:E1; try discriminate E. cbn [bindO] in E.
        destruct (purge_some m m1 F E1) as (k1 & v1 & -> & I).
        { intros ->. cbn in H. lia. }
        destruct (IH h _ m' Hh (erase_sorted k1 m S) (erase_nonempty k1 m F) E) as (A & B & K).
        split; [exact A|]. split; [exact B|]. intro k. destruct (K k) as [K1|K1]; [|auto].
        destruct (String.eqb_spec k k1) as [->|D].
        * right. rewrite K1. apply erase_find_same. now apply sorted_nodup.
        * left. rewrite K1. now apply erase_find_other.
      + assert (m = m') by congruence. subst. auto.
  Qed.
End Evict.

(** ** One call *)
Section Step.
  Context {T : Type} {N : Num T}.

  Definition wf (f : Filter T) : Prop := sorted (f_map f) /\ nonempty (f_map f).

  (** The settings are the same. *)
  Definition same (f f' : Filter T) : Prop :=
    f_enabled f' = f_enabled f /\ f_lock f' = f_lock f /\ f_types f' = f_types f /\
    f_interval f' = f_interval f /\ f_count f' = f_count f /\ f_history f' = f_history f.

  Lemma same_ready : forall f f', same f f' -> ready f -> ready f'.
  Proof.
    intros f f' (A & B & C & D & E & F) (G & H & I & J & K). unfold ready.
    rewrite A, B, D, E, F. auto.
  Qed.

  Lemma same_passes : forall f f' r, same f f' -> passes f' r = passes f r.
  Proof.
    intros f f' r (A & B & C & D & E & F). unfold passes, is_type_filtered. now rewrite C.
  Qed.

  Lemma nonempty_insert : forall k (v : list T) m, v <> [] -> nonempty m -> nonempty (map_insert k v m).
  Proof.
    intros k v m V F. unfold nonempty in *. rewrite Forall_forall in F |- *. intros x I.
    apply (Permutation_in _ (insert_perm k v m)) in I. destruct I as [<-|I]; auto.
  Qed.

  Lemma nonempty_update : forall k (v : list T) m, v <> [] -> nonempty m -> nonempty (map_update k v m).
  Proof.
    intros k v m V F. induction m as [|[k' v'] r IH]; cbn [map_update]; [exact F|].
    inversion F as [|? ? F1 F2]; subst. destruct (String.eqb k k'); constructor; auto. now apply IH.
  Qed.

  Definition purged (f : Filter T) (ds : list T) (r : Req T) : list T :=
    purge_times ds (r_time r -~ ndec (f_interval f) 0).

  (** What one call does, seen from any key. *)
  Lemma step : forall f r f' b, ready f -> wf f -> should_send f r = Ret (f', b) ->
    same f f' /\ wf f' /\
    f_processed f' = (f_processed f + 1)%Z /\
    (f_suppressed f' = f_suppressed f + if b then 0 else 1)%Z /\
    (passes f r = false -> b = false /\ f_map f' = f_map f) /\
    (passes f r = true ->
      match map_find (key_of r) (f_map f) with
      | None => b = true /\ map_find (key_of r) (f_map f') = Some [r_time r]
      | Some ds =>
          b = (Z.of_nat (List.length (purged f ds r)) <? f_count f)%Z /\
          map_find (key_of r) (f_map f') = Some (purged f ds r ++ if b then [r_time r] else [])
      end /\
      forall k, k <> key_of r -> map_find k (f_map f') = map_find k (f_map f) \/ map_find k (f_map f') = None).
  Proof.
    intros f r f' b (A & B & C & D & I) (S & F) E.
    unfold should_send in E. rewrite A, B in E. cbn [negb] in E.
    unfold should_send_locked in E. cbn [f_processed f_suppressed with_lock with_counts f_map f_history f_interval f_count] in E.
    unfold int_inc in E at 1. destruct (int_max <=? f_processed f)%Z; [discriminate E|]. cbn [bindO] in E.
    change (is_type_filtered (with_counts (with_lock f true) (f_processed f + 1) (f_suppressed f)) (r_type r))
      with (is_type_filtered f (r_type r)) in E.
    unfold passes. destruct (is_type_filtered f (r_type r)) eqn:TF; cbn [negb].
    - unfold int_inc in E. destruct (int_max <=? f_suppressed f)%Z; [discriminate E|]. cbn [bindO] in E.
      assert (E1 : f' = with_lock (with_counts (with_counts (with_lock f true) (f_processed f + 1) (f_suppressed f))
         (f_processed f + 1) (f_suppressed f + 1)) false) by congruence.
      assert (E2 : b = false) by congruence. clear E. subst f' b.
      split; [unfold same; cbn; rewrite B; repeat split|]. split; [split; assumption|].
      split; [reflexivity|]. split; [reflexivity|]. split; [split; reflexivity | discriminate].
    - destruct (map_find (key_of r) (f_map f)) as [ds|] eqn:FD.
      + fold (purged f ds r) in E.
        destruct (Z.of_nat (List.length (purged f ds r)) <? f_count f)%Z eqn:L.
        * cbn [bindO] in E.
          assert (E2 : b = true) by congruence.
          assert (E1 : f' = with_lock (with_map (with_counts (with_lock f true) (f_processed f + 1) (f_suppressed f))
             (map_update (key_of r) (purged f ds r ++ [r_time r]) (f_map f))) false) by congruence.
          clear E. subst f' b.
          split; [unfold same; cbn; rewrite B; repeat split|]. split.
          { split; cbn [f_map with_lock with_map]; [now apply update_sorted | apply nonempty_update; [|assumption]].
            now destruct (purged f ds r). }
          split; [reflexivity|]. split; [cbn; lia|]. split; [discriminate|]. intros _.
          cbn [f_map with_lock with_map]. split; [split; [reflexivity|] |].
          -- rewrite update_find by congruence. now rewrite String.eqb_refl.
          -- intros k K. left. rewrite update_find by congruence. apply String.eqb_neq in K. now rewrite K.
        * unfold int_inc in E. destruct (int_max <=? f_suppressed f)%Z; [discriminate E|]. cbn [bindO] in E.
          assert (E2 : b = false) by congruence.
          assert (E1 : f' = with_lock (with_counts (with_map (with_counts (with_lock f true) (f_processed f + 1) (f_suppressed f))
             (map_update (key_of r) (purged f ds r) (f_map f))) (f_processed f + 1) (f_suppressed f + 1)) false) by congruence.
          clear E. subst f' b. apply Z.ltb_ge in L.
          split; [unfold same; cbn; rewrite B; repeat split|]. split.
          { split; cbn [f_map with_lock with_map with_counts]; [now apply update_sorted | apply nonempty_update; [|assumption]].
            intro X. rewrite X in L. cbn in L. lia. }
          split; [reflexivity|]. split; [reflexivity|]. split; [discriminate|]. intros _.
          cbn [f_map with_lock with_map with_counts]. split; [split; [reflexivity|] |].
          -- rewrite update_find by congruence. rewrite String.eqb_refl. now rewrite app_nil_r.
          -- intros k K. left. rewrite update_find by congruence. apply String.eqb_neq in K. now rewrite K.
      + destruct (make_room _ (f_history f) (f_map f)) as [m'| |] eqn:MR; try discriminate E. cbn [bindO] in E.
        assert (E2 : b = true) by congruence.
        assert (E1 : f' = with_lock (with_map (with_counts (with_lock f true) (f_processed f + 1) (f_suppressed f))
             (map_insert (key_of r) [r_time r] m')) false) by congruence.
        clear E. subst f' b.
        destruct (make_room_keeps _ _ _ _ D S F MR) as (S' & F' & K').
        assert (FN : map_find (key_of r) m' = None) by (destruct (K' (key_of r)); congruence).
        split; [unfold same; cbn; rewrite B; repeat split|]. split.
        { split; cbn [f_map with_lock with_map]; [now apply insert_sorted | now apply nonempty_insert]. }
        split; [reflexivity|]. split; [cbn; lia|]. split; [discriminate|]. intros _.
        cbn [f_map with_lock with_map]. split; [split; [reflexivity|] |].
        * rewrite insert_find by assumption. now rewrite String.eqb_refl.
        * intros k K. rewrite insert_find by assumption. apply String.eqb_neq in K. rewrite K. apply K'.
  Qed.
End Step.

(** ** A run, seen from one key *)
Section Run.
  Context {T : Type} {N : Num T} {V : NumVal T}.
  Local Open Scope R_scope.

  Definition times_sorted : list T -> Prop := StronglySorted (fun a b => val a <= val b).

  Lemma window_app : forall a b (l1 l2 : list T),
    in_window a b (l1 ++ l2) = (in_window a b l1 + in_window a b l2)%nat.
  Proof. intros. unfold in_window. now rewrite filter_app, app_length. Qed.

  Lemma window_le : forall a b (l : list T), (in_window a b l <= List.length l)%nat.
  Proof.
    intros. unfold in_window. induction l as [|x l IH]; cbn [List.filter]; [apply Nat.le_refl|].
    destruct (_ && _); cbn [List.length]; lia.
  Qed.

  Lemma window_none : forall a b (l : list T), Forall (fun x => val x < a \/ b < val x) l -> in_window a b l = 0%nat.
  Proof.
    intros a b l F. unfold in_window. induction F as [|x l Hx F IH]; cbn [List.filter]; [reflexivity|].
    destruct (Rleb_spec a (val x)), (Rleb_spec (val x) b); cbn [andb]; auto. lra.
  Qed.

  Lemma window_all : forall a b (l : list T), Forall (fun x => a <= val x <= b) l -> in_window a b l = List.length l.
  Proof.
    intros a b l F. unfold in_window. induction F as [|x l Hx F IH]; cbn [List.filter]; [reflexivity|].
    rewrite !Rleb_true by lra. cbn [andb List.length]. now rewrite IH.
  Qed.

  Lemma purge_spec : forall (ds : list T) s, nnan s = false -> times_sorted ds ->
    Forall (fun x => nfin x = true) ds ->
    exists p, ds = p ++ purge_times ds s /\ Forall (fun x => val x < val s) p /\
      Forall (fun x => val s <= val x) (purge_times ds s).
  Proof.
    induction ds as [|x ds IH]; intros s Ns St F; cbn [purge_times].
    - exists []. repeat split; constructor.
    - inversion F as [|? ? F1 F2]; subst. inversion St as [|? ? S1 S2]; subst.
      rewrite val_lt by (auto using fin_nan). destruct (Rltb_spec (val x) (val s)) as [L|L].
      + destruct (IH s Ns S1 F2) as (p & E & P & Q). exists (x :: p). split; [cbn [app]; congruence|].
        split; [now constructor | exact Q].
      + exists []. split; [reflexivity|]. split; [constructor|]. constructor; [lra|].
        eapply Forall_impl; [|exact S2]. cbv beta. intros. lra.
  Qed.

  Definition limit (I c : Z) (S : list T) : Prop :=
    forall a, (Z.of_nat (in_window a (a + IZR I) S) <= c)%Z.

  (** The last time is [t0], the recorded times are the end of the sent ones, and
      the rest are before the window that ends at [t0]. *)
  Definition recorded (I : Z) (S ds : list T) (t0 : T) : Prop :=
    exists old, S = old ++ ds /\ times_sorted S /\
      Forall (fun x => nfin x = true /\ val x <= val t0) S /\ nfin t0 = true /\
      Forall (fun x => val x < rd (val t0 - IZR I)) old.

  Lemma recorded_later : forall I S ds t0 t, recorded I S ds t0 -> nfin t = true -> val t0 <= val t ->
    recorded I S ds t.
  Proof.
    intros I S ds t0 t (old & E & St & F & Ft & O) Fin L. exists old.
    split; [exact E|]. split; [exact St|]. split.
    - eapply Forall_impl; [|exact F]. cbv beta. intros x (A & B). split; [exact A | lra].
    - split; [exact Fin|]. eapply Forall_impl; [|exact O]. cbv beta. intros x A.
      assert (rd (val t0 - IZR I) <= rd (val t - IZR I)) by (apply rd_mono; lra). lra.
  Qed.

  Lemma forall_app_r : forall (P : T -> Prop) a b, Forall P (a ++ b) -> Forall P b.
  Proof. intros P a b. rewrite Forall_app. tauto. Qed.

  Lemma sorted_app_r : forall a b : list T, times_sorted (a ++ b) -> times_sorted b.
  Proof. induction a as [|x a IH]; intros b St; [exact St|]. inversion St; subst. now apply IH. Qed.

  Lemma sorted_snoc : forall (l : list T) t, times_sorted l -> Forall (fun x => val x <= val t) l -> times_sorted (l ++ [t]).
  Proof.
    induction l as [|x l IH]; intros t St F; cbn [app].
    - repeat constructor.
    - inversion St as [|? ? S1 S2]; subst. inversion F as [|? ? F1 F2]; subst.
      constructor; [now apply IH|]. apply Forall_app. split; [exact S2 | constructor; [exact F1 | constructor]].
  Qed.

  Lemma start_val : forall (I : Z) t, (1 <= I <= int_max)%Z -> nfin t = true ->
    nnan (t -~ ndec I 0) = false /\ val (t -~ ndec I 0) = rd (val t - IZR I).
  Proof.
    intros I t HI Ft. destruct (val_int I) as (A & B).
    - unfold int_max in HI. rewrite Z.abs_eq by lia. eapply Z.le_trans; [apply HI|]. vm_compute. discriminate.
    - destruct (val_sub t (ndec I 0) Ft A) as (C & D). rewrite B in D. auto.
  Qed.

  (** Purging at time [t], the time of the next message. *)
  Lemma recorded_purge : forall I S ds t, (1 <= I <= int_max)%Z -> recorded I S ds t ->
    let ds' := purge_times ds (t -~ ndec I 0) in
    recorded I S ds' t /\ in_window (val (t -~ ndec I 0)) (val t) S = List.length ds'.
  Proof.
    intros I S ds t HI (old & E & St & F & Ft & O) ds'.
    destruct (start_val I t HI Ft) as (Ns & Vs). subst S.
    destruct (purge_spec ds (t -~ ndec I 0)) as (p & E & P & Q); auto.
    { eapply sorted_app_r; eauto. }
    { eapply Forall_impl; [|eapply forall_app_r; exact F]. cbv beta. tauto. }
    fold ds' in E, Q. split.
    - exists (old ++ p). split; [rewrite <- app_assoc; now rewrite <- E|].
      split; [exact St|]. split; [exact F|]. split; [exact Ft|].
      apply Forall_app. split; [exact O|]. rewrite Vs in P. exact P.
    - rewrite E, app_assoc, window_app. rewrite window_none.
      + apply window_all. rewrite E, app_assoc in F. apply forall_app_r in F.
        rewrite Forall_forall in Q, F |- *. intros x X. specialize (Q x X). destruct (F x X). lra.
      + rewrite Vs. apply Forall_app. rewrite Vs in P.
        split; [eapply Forall_impl; [|exact O] | eapply Forall_impl; [|exact P]]; cbv beta; auto.
  Qed.

  Lemma recorded_push : forall I S ds t c, recorded I S ds t -> (Z.of_nat (List.length ds) < c)%Z ->
    limit I c S -> recorded I (S ++ [t]) (ds ++ [t]) t /\ limit I c (S ++ [t]).
  Proof.
    intros I S ds t c (old & E & St & F & Ft & O) L Lim. split.
    - exists old. split; [subst S; now rewrite app_assoc|]. split.
      + apply sorted_snoc; [exact St|]. eapply Forall_impl; [|exact F]. cbv beta. tauto.
      + split; [|split; assumption]. apply Forall_app. split; [exact F|].
        constructor; [split; [exact Ft | lra] | constructor].
    - intro a. rewrite window_app.
      destruct (Rle_dec a (val t)) as [L1|L1]; [destruct (Rle_dec (val t) (a + IZR I)) as [L2|L2]|].
      + subst S. rewrite window_app, (window_none _ _ old).
        * pose proof (window_le a (a + IZR I) ds). pose proof (window_le a (a + IZR I) [t]).
          cbn [List.length] in *. lia.
        * apply Forall_app in F. destruct F as (F & _). rewrite Forall_forall in O, F |- *.
          intros x X. left. specialize (O x X). destruct (F x X) as (Fx & _).
          destruct (Rlt_le_dec (val x) a) as [Y|Y]; [exact Y|]. exfalso.
          assert (rd (val t - IZR I) <= rd (val x)) by (apply rd_mono; lra).
          rewrite rd_val in H by exact Fx. lra.
      + rewrite (window_none _ _ [t]); [rewrite Nat.add_0_r; apply Lim|].
        constructor; [right; lra | constructor].
      + rewrite (window_none _ _ [t]); [rewrite Nat.add_0_r; apply Lim|].
        constructor; [left; lra | constructor].
  Qed.

  Definition kept_from (seen : bool) (k : string) (f : Filter T) (rs : list (Req T)) : Prop :=
    forall n f' bs, send_all f (firstn n rs) = Ret (f', bs) ->
      (seen = true \/ exists r, In r (firstn n rs) /\ key_of r = k /\ passes f r = true) ->
      map_find k (f_map f') <> None.

  Definition run_inv (k : string) (f : Filter T) (S : list T) (last : option T) (seen : bool) : Prop :=
    match map_find k (f_map f) with
    | None => S = [] /\ seen = false
    | Some ds => seen = true /\ exists t0, last = Some t0 /\ recorded (f_interval f) S ds t0
    end.

  Lemma kept_step : forall seen k f r rs f1 b, kept_from seen k f (r :: rs) ->
    should_send f r = Ret (f1, b) -> same f f1 ->
    kept_from (seen || (String.eqb (key_of r) k && passes f r)) k f1 rs.
  Proof.
    intros seen k f r rs f1 b K E Sm n f' bs R C.
    apply (K (Datatypes.S n) f' (b :: bs)).
    - cbn [firstn send_all]. rewrite E. cbn [bindO]. now rewrite R.
    - destruct seen; [now left|]. right. cbn [orb] in C. destruct C as [C|(x & I & A & B)].
      + apply andb_prop in C. destruct C as (C1 & C2). apply String.eqb_eq in C1.
        exists r. cbn [firstn In]. auto.
      + exists x. cbn [firstn In]. rewrite (same_passes f f1) in B by exact Sm. auto.
  Qed.

  Lemma limit_nil : forall I c, (1 <= c)%Z -> limit I c [].
  Proof. intros I c H a. unfold in_window. cbn. lia. Qed.

  Lemma limit_one : forall I c t, (1 <= c)%Z -> limit I c [t].
  Proof. intros I c t H a. pose proof (window_le a (a + IZR I) [t]). cbn [List.length] in *. lia. Qed.

  Lemma run : forall k rs f S last seen f' bs, ready f -> wf f -> run_inv k f S last seen ->
    limit (f_interval f) (f_count f) S ->
    in_time k last rs -> kept_from seen k f rs -> send_all f rs = Ret (f', bs) ->
    limit (f_interval f) (f_count f) (S ++ sent k rs bs) /\
    forall i r, nth_error rs i = Some r -> key_of r = k -> passes f r = true ->
      nth_error bs i = Some (Z.of_nat (in_window (val (r_time r -~ ndec (f_interval f) 0)) (val (r_time r))
         (S ++ sent k (firstn i rs) (firstn i bs))) <? f_count f)%Z.
  Proof.
    intros k. induction rs as [|r rs IH]; intros f S last seen f' bs Rd W Inv Lim T1 K E.
    - cbn [send_all] in E. assert (bs = []) by congruence. subst. cbn [sent]. rewrite app_nil_r.
      split; [exact Lim|]. intros [|i] r X; discriminate X.
    - cbn [send_all] in E. destruct (should_send f r) as [[f1 b]| |] eqn:E1; try discriminate E.
      cbn [bindO] in E. destruct (send_all f1 rs) as [[f2 bs']| |] eqn:E2; try discriminate E.
      cbn [bindO] in E. assert (Eb : bs = b :: bs') by congruence. clear E. subst bs.
      destruct (step f r f1 b Rd W E1) as (Sm & W1 & _ & _ & Sf & St).
      pose proof (kept_step _ _ _ _ _ _ _ K E1 Sm) as K1.
      pose proof (same_ready _ _ Sm Rd) as Rd1.
      assert (HI : f_interval f1 = f_interval f) by apply Sm.
      assert (HC : f_count f1 = f_count f) by apply Sm.
      assert (RI : (1 <= f_interval f <= int_max)%Z) by apply Rd.
      assert (RC : (1 <= f_count f)%Z) by apply Rd.
      (* the state before the next calls, and the answer to this one *)
      assert (Next : exists last', in_time k last' rs /\
         run_inv k f1 (S ++ (if String.eqb (key_of r) k && b then [r_time r] else [])) last'
           (seen || (String.eqb (key_of r) k && passes f r)) /\
         limit (f_interval f) (f_count f) (S ++ (if String.eqb (key_of r) k && b then [r_time r] else [])) /\
         (key_of r = k -> passes f r = true ->
          b = (Z.of_nat (in_window (val (r_time r -~ ndec (f_interval f) 0)) (val (r_time r)) S) <? f_count f)%Z)).
      { cbn [in_time] in T1. destruct (String.eqb_spec (key_of r) k) as [Ek|Ek]; cbn [andb].
        - destruct T1 as (Ft & Lt & T1). exists (Some (r_time r)). split; [exact T1|].
          destruct (passes f r) eqn:P.
          + destruct (St eq_refl) as (Hk & _). rewrite Ek in Hk.
            unfold run_inv in Inv |- *. destruct (map_find k (f_map f)) as [ds|] eqn:FD.
            * destruct Inv as (Se & t0 & -> & Rec). cbn in Lt.
              pose proof (recorded_later _ _ _ _ _ Rec Ft Lt) as Rec1.
              destruct (recorded_purge _ _ _ _ RI Rec1) as (Rec2 & Win).
              fold (purged f ds r) in Rec2, Win. rewrite Win.
              destruct Hk as (Hb & ->). rewrite HI. split; [split|].
              -- now rewrite Se.
              -- exists (r_time r). split; [reflexivity|]. destruct b; [|now rewrite !app_nil_r].
                 symmetry in Hb. apply Z.ltb_lt in Hb.
                 now apply (recorded_push _ _ _ _ (f_count f)).
              -- split; [|intros; exact Hb]. destruct b; [|now rewrite app_nil_r].
                 symmetry in Hb. apply Z.ltb_lt in Hb. now apply (recorded_push _ _ _ _ (f_count f) Rec2).
            * destruct Inv as (-> & ->). destruct Hk as (-> & ->). cbn [app orb]. split; [split|].
              -- reflexivity.
              -- exists (r_time r). split; [reflexivity|]. exists []. rewrite HI. split; [reflexivity|].
                 split; [repeat constructor|]. split; [constructor; [split; [exact Ft | lra] | constructor]|].
                 split; [exact Ft | constructor].
              -- split; [now apply limit_one|]. intros _ _. symmetry. apply Z.ltb_lt. cbn. lia.
          + destruct (Sf eq_refl) as (-> & Em). rewrite app_nil_r, orb_false_r. split; [|split; [exact Lim | discriminate]].
            unfold run_inv in Inv |- *. rewrite Em, HI. destruct (map_find k (f_map f)) as [ds|] eqn:FD; [|exact Inv].
            destruct Inv as (Se & t0 & -> & Rec). split; [exact Se|]. exists (r_time r). split; [reflexivity|].
            eapply recorded_later; eauto.
        - exists last. rewrite app_nil_r, orb_false_r. split; [exact T1|]. split; [|split; [exact Lim | contradiction]].
          assert (Fd : map_find k (f_map f1) = map_find k (f_map f) \/ map_find k (f_map f1) = None).
          { destruct (passes f r).
            - destruct (St eq_refl) as (_ & H). apply H. congruence.
            - left. destruct (Sf eq_refl) as (_ & ->). reflexivity. }
          unfold run_inv in Inv |- *. rewrite HI. destruct Fd as [-> | FN]; [exact Inv|]. rewrite FN.
          destruct (map_find k (f_map f)) eqn:FD; [|exact Inv]. exfalso. destruct Inv as (Se & _).
          apply (K1 0%nat f1 []); [reflexivity | | exact FN]. left. now rewrite Se. }
      destruct Next as (last' & T2 & Inv1 & Lim1 & Ans).
      specialize (IH f1 _ last' _ f2 bs' Rd1 W1 Inv1).
      rewrite HI, HC in IH. destruct (IH Lim1 T2 K1 E2) as (A & B).
      assert (Sent : forall x y, (S ++ (if String.eqb (key_of r) k && b then [r_time r] else [])) ++ sent k x y
         = S ++ sent k (r :: x) (b :: y)).
      { intros. cbn [sent]. destruct (String.eqb (key_of r) k && b); cbn [app]; rewrite <- app_assoc; reflexivity. }
      rewrite Sent in A. split; [exact A|].
      intros [|i] r' X Y Z; cbn [nth_error firstn] in X |- *.
      + assert (r' = r) by congruence. subst r'. cbn [sent]. rewrite app_nil_r. f_equal. auto.
      + rewrite <- Sent. apply B; auto. now rewrite (same_passes f f1).
  Qed.
End Run.

(** ** When calls are defined *)
Section Defined.
  Context {T : Type} {N : Num T}.

  Definition counters_ok (f : Filter T) (n : Z) : Prop :=
    (f_processed f + n <= int_max)%Z /\ (f_suppressed f + n <= int_max)%Z.

  Lemma int_inc_ok : forall x, (x < int_max)%Z -> int_inc x = Ret (x + 1)%Z.
  Proof. intros x H. unfold int_inc. destruct (Z.leb_spec int_max x); [lia | reflexivity]. Qed.

  Definition room (f : Filter T) (r : Req T) : Prop :=
    exists m, make_room (S (List.length (f_map f))) (f_history f) (f_map f) = Ret m.

  Lemma room_two : forall f r, (2 <= f_history f)%Z -> wf f -> room f r.
  Proof.
    intros f r H (S1 & F). destruct (make_room_ok (S (List.length (f_map f))) (f_history f) (f_map f)) as (m & E & _); auto.
    exists m. exact E.
  Qed.

  Lemma make_room_id : forall n h (m : list (string * list T)), (Z.of_nat (List.length m) < h)%Z -> make_room n h m = Ret m.
  Proof.
    intros n h m L. destruct n; cbn [make_room]; destruct (Z.geb_spec (Z.of_nat (List.length m)) h); auto; lia.
  Qed.

  Lemma send_defined : forall f r, ready f -> counters_ok f 1 ->
    (map_find (key_of r) (f_map f) = None -> room f r) ->
    exists f' b, should_send f r = Ret (f', b).
  Proof.
    intros f r (A & B & C & D & I) (P1 & P2) Rm.
    unfold should_send. rewrite A, B. cbn [negb]. unfold should_send_locked.
    cbn [f_processed f_suppressed with_lock with_counts f_map f_history f_interval f_count].
    rewrite (int_inc_ok (f_processed f)) by lia. cbn [bindO f_suppressed with_counts f_map].
    destruct (is_type_filtered _ _).
    - rewrite int_inc_ok by lia. cbn [bindO]. eauto.
    - destruct (map_find (key_of r) (f_map f)) as [ds|] eqn:FD.
      + destruct (Z.of_nat _ <? _)%Z; [cbn [bindO]; eauto|].
        cbn [f_suppressed with_map]. rewrite int_inc_ok by lia. cbn [bindO]. eauto.
      + destruct (Rm eq_refl) as (m & E). rewrite E. cbn [bindO]. eauto.
  Qed.

  Lemma counters_step : forall f r f' b n, ready f -> wf f -> (0 <= n)%Z -> counters_ok f (n + 1) ->
    should_send f r = Ret (f', b) -> counters_ok f' n.
  Proof.
    intros f r f' b n Rd W Hn (P1 & P2) E.
    destruct (step f r f' b Rd W E) as (_ & _ & A & B & _). unfold counters_ok. rewrite A, B.
    destruct b; lia.
  Qed.

  Lemma run_defined : forall rs f, ready f -> wf f -> (2 <= f_history f)%Z ->
    counters_ok f (Z.of_nat (List.length rs)) ->
    exists f' bs, send_all f rs = Ret (f', bs).
  Proof.
    induction rs as [|r rs IH]; intros f Rd W H2 C; cbn [send_all]; [eauto|].
    cbn [List.length] in C. rewrite Nat2Z.inj_succ in C. unfold Z.succ in C.
    destruct (send_defined f r Rd) as (f1 & b & E).
    { destruct C. split; lia. }
    { intros _. now apply room_two. }
    rewrite E. cbn [bindO].
    destruct (step f r f1 b Rd W E) as (Sm & W1 & _).
    destruct (IH f1) as (f2 & bs & E2); auto.
    - eapply same_ready; eauto.
    - destruct Sm as (_ & _ & _ & _ & _ & ->). exact H2.
    - eapply counters_step; eauto. lia.
    - rewrite E2. cbn [bindO]. eauto.
  Qed.

  (** The size never passes the limit. *)
  Lemma size_step : forall f r f' b, ready f -> wf f -> (2 <= f_history f)%Z ->
    (Z.of_nat (List.length (f_map f)) <= f_history f)%Z ->
    should_send f r = Ret (f', b) -> (Z.of_nat (List.length (f_map f')) <= f_history f')%Z.
  Proof.
    intros f r f' b Rd W H2 L E.
    pose proof (step f r f' b Rd W E) as (Sm & _ & _ & _ & Sf & St).
    assert (HH : f_history f' = f_history f) by apply Sm. rewrite HH.
    destruct Rd as (A & B & C & D & I). destruct W as (S1 & F).
    unfold should_send in E. rewrite A, B in E. cbn [negb] in E.
    unfold should_send_locked in E. cbn [f_processed f_suppressed with_lock with_counts f_map f_history f_interval f_count] in E.
    unfold int_inc in E at 1. destruct (int_max <=? f_processed f)%Z; [discriminate E|]. cbn [bindO] in E.
    assert (UL : forall k (v : list T) m, List.length (map_update k v m) = List.length m).
    { intros k v m. rewrite <- (map_length fst), update_keys. apply map_length. }
    destruct (is_type_filtered _ _) eqn:TF.
    - destruct (Sf ltac:(unfold passes; change (is_type_filtered f (r_type r)) with (is_type_filtered (with_counts (with_lock f true) (f_processed f + 1) (f_suppressed f)) (r_type r)); now rewrite TF)) as (_ & ->). exact L.
    - destruct (map_find (key_of r) (f_map f)) as [ds|].
      + destruct (Z.of_nat _ <? _)%Z.
        * cbn [bindO] in E.
          assert (E1 : exists v, f_map f' = map_update (key_of r) v (f_map f)).
          { eexists. apply (f_equal (fun o => match o with Ret x => f_map (fst x) | _ => [] end)) in E.
            symmetry. exact E. }
          destruct E1 as (v & ->). now rewrite UL.
        * unfold int_inc in E. destruct (int_max <=? f_suppressed f)%Z; [discriminate E|]. cbn [bindO] in E.
          assert (E1 : exists v, f_map f' = map_update (key_of r) v (f_map f)).
          { eexists. apply (f_equal (fun o => match o with Ret x => f_map (fst x) | _ => [] end)) in E.
            symmetry. exact E. }
          destruct E1 as (v & ->). now rewrite UL.
      + destruct (make_room_ok (S (List.length (f_map f))) (f_history f) (f_map f)) as (m & E1 & _ & _ & L1 & _); auto.
        rewrite E1 in E. cbn [bindO] in E.
        assert (E2 : f_map f' = map_insert (key_of r) [r_time r] m).
        { apply (f_equal (fun o => match o with Ret x => f_map (fst x) | _ => [] end)) in E. symmetry. exact E. }
        rewrite E2, (Permutation_length (insert_perm _ _ _)). cbn [List.length]. lia.
  Qed.

  Lemma size_run : forall rs f f' bs, ready f -> wf f -> (2 <= f_history f)%Z ->
    (Z.of_nat (List.length (f_map f)) <= f_history f)%Z ->
    send_all f rs = Ret (f', bs) ->
    (Z.of_nat (List.length (f_map f')) <= f_history f')%Z /\ wf f' /\ same f f'.
  Proof.
    induction rs as [|r rs IH]; intros f f' bs Rd W H2 L E; cbn [send_all] in E.
    - assert (f' = f) by congruence. subst. split; [exact L|]. split; [exact W|]. unfold same. tauto.
    - destruct (should_send f r) as [[f1 b]| |] eqn:E1; try discriminate E. cbn [bindO] in E.
      destruct (send_all f1 rs) as [[f2 bs']| |] eqn:E2; try discriminate E. cbn [bindO] in E.
      assert (f' = f2) by congruence. subst f2.
      destruct (step f r f1 b Rd W E1) as (Sm & W1 & _).
      pose proof (size_step f r f1 b Rd W H2 L E1) as L1.
      assert (HH : f_history f1 = f_history f) by apply Sm.
      destruct (IH f1 f' bs' (same_ready _ _ Sm Rd) W1 ltac:(lia) L1 E2) as (A & B & C).
      split; [exact A|]. split; [exact B|].
      unfold same in *. decompose [and] Sm. decompose [and] C. repeat split; congruence.
  Qed.

  (** The counters. *)
  Lemma count_run : forall rs f f' bs, ready f -> wf f -> send_all f rs = Ret (f', bs) ->
    List.length bs = List.length rs /\
    (f_processed f' = f_processed f + Z.of_nat (List.length rs))%Z /\
    (f_suppressed f' = f_suppressed f + Z.of_nat (count_occ bool_dec bs false))%Z.
  Proof.
    induction rs as [|r rs IH]; intros f f' bs Rd W E; cbn [send_all] in E.
    - assert (f' = f) by congruence. assert (bs = []) by congruence. subst. cbn. lia.
    - destruct (should_send f r) as [[f1 b]| |] eqn:E1; try discriminate E. cbn [bindO] in E.
      destruct (send_all f1 rs) as [[f2 bs']| |] eqn:E2; try discriminate E. cbn [bindO] in E.
      assert (f' = f2) by congruence. assert (bs = b :: bs') by congruence. subst f2 bs.
      destruct (step f r f1 b Rd W E1) as (Sm & W1 & A & B & _).
      destruct (IH f1 f' bs' (same_ready _ _ Sm Rd) W1 E2) as (C & D & F).
      cbn [List.length count_occ]. rewrite D, F, A, B, C. destruct b; cbn [bool_dec]; 
        destruct (bool_dec _ false); try discriminate; try congruence; lia.
  Qed.

  (** ** Few enough keys: nothing is forgotten *)
  Variable K : list string.

  Definition fits (f : Filter T) : Prop :=
    incl (map fst (f_map f)) K /\ (Z.of_nat (List.length K) <= f_history f)%Z.

  Lemma fits_room : forall f (r : Req T), fits f -> wf f -> In (key_of r) K -> map_find (key_of r) (f_map f) = None ->
    (Z.of_nat (List.length (f_map f)) < f_history f)%Z.
  Proof.
    intros f r (A & B) (S1 & F) I FN. apply find_none in FN.
    assert (L : (S (List.length (map fst (f_map f))) <= List.length K)%nat).
    { change (S (List.length (map fst (f_map f)))) with (List.length (key_of r :: map fst (f_map f))).
      apply NoDup_incl_length; [constructor; [exact FN | now apply sorted_nodup]|].
      intros x [<-|X]; auto. }
    rewrite map_length in L. lia.
  Qed.

  Lemma fits_step : forall f r f' b, ready f -> wf f -> fits f -> In (key_of r) K ->
    should_send f r = Ret (f', b) ->
    fits f' /\ incl (map fst (f_map f)) (map fst (f_map f')) /\
    (passes f r = true -> In (key_of r) (map fst (f_map f'))).
  Proof.
    intros f r f' b Rd W Ft I E.
    pose proof (step f r f' b Rd W E) as (Sm & _ & _ & _ & Sf & St).
    assert (P3 : passes f r = true -> In (key_of r) (map fst (f_map f'))).
    { intros P. destruct (St P) as (H & _). 
      assert (X : map_find (key_of r) (f_map f') <> None).
      { destruct (map_find (key_of r) (f_map f)); destruct H as (_ & ->); discriminate. }
      destruct (in_dec string_dec (key_of r) (map fst (f_map f'))) as [Y|Y]; [exact Y|].
      apply find_none in Y. contradiction. }
    assert (HH : f_history f' = f_history f) by apply Sm.
    enough (Q : incl (map fst (f_map f')) K /\ incl (map fst (f_map f)) (map fst (f_map f'))).
    { destruct Ft, Q. unfold fits. rewrite HH. tauto. }
    clear St P3. pose proof Rd as (A & B & C & D & _). pose proof Ft as (F1 & F2).
    unfold should_send in E. rewrite A, B in E. cbn [negb] in E.
    unfold should_send_locked in E. cbn [f_processed f_suppressed with_lock with_counts f_map f_history f_interval f_count] in E.
    unfold int_inc in E at 1. destruct (int_max <=? f_processed f)%Z; [discriminate E|]. cbn [bindO] in E.
    destruct (is_type_filtered _ _) eqn:TF.
    - destruct (Sf ltac:(unfold passes; change (is_type_filtered f (r_type r)) with (is_type_filtered (with_counts (with_lock f true) (f_processed f + 1) (f_suppressed f)) (r_type r)); now rewrite TF)) as (_ & ->).
      split; [exact F1 | apply incl_refl].
    - destruct (map_find (key_of r) (f_map f)) as [ds|] eqn:FD.
      + destruct (Z.of_nat _ <? _)%Z.
        * cbn [bindO] in E.
          apply (f_equal (fun o => match o with Ret x => f_map (fst x) | _ => [] end)) in E.
          cbn [fst f_map with_lock with_map] in E. rewrite <- E, update_keys. split; [exact F1 | apply incl_refl].
        * unfold int_inc in E. destruct (int_max <=? f_suppressed f)%Z; [discriminate E|]. cbn [bindO] in E.
          apply (f_equal (fun o => match o with Ret x => f_map (fst x) | _ => [] end)) in E.
          cbn [fst f_map with_lock with_map with_counts] in E. rewrite <- E, update_keys. split; [exact F1 | apply incl_refl].
      + rewrite make_room_id in E by (eapply fits_room; eauto). cbn [bindO] in E.
        apply (f_equal (fun o => match o with Ret x => f_map (fst x) | _ => [] end)) in E.
        cbn [fst f_map with_lock with_map] in E. rewrite <- E.
        pose proof (Permutation_map fst (insert_perm (key_of r) [r_time r] (f_map f))) as P. cbn [map fst] in P.
        split; intros x X.
        * apply (Permutation_in _ P) in X. destruct X as [<-|X]; auto.
        * apply (Permutation_in _ (Permutation_sym P)). now right.
  Qed.

  Lemma fits_run : forall rs f f' bs, ready f -> wf f -> fits f -> (forall r, In r rs -> In (key_of r) K) ->
    send_all f rs = Ret (f', bs) ->
    incl (map fst (f_map f)) (map fst (f_map f')) /\
    (forall r, In r rs -> passes f r = true -> In (key_of r) (map fst (f_map f'))).
  Proof.
    induction rs as [|r rs IH]; intros f f' bs Rd W Ft I E; cbn [send_all] in E.
    - assert (f' = f) by congruence. subst. split; [apply incl_refl | contradiction].
    - destruct (should_send f r) as [[f1 b]| |] eqn:E1; try discriminate E. cbn [bindO] in E.
      destruct (send_all f1 rs) as [[f2 bs']| |] eqn:E2; try discriminate E. cbn [bindO] in E.
      assert (f' = f2) by congruence. subst f2.
      pose proof (step f r f1 b Rd W E1) as (Sm & W1 & _).
      destruct (fits_step f r f1 b Rd W Ft (I r (or_introl eq_refl)) E1) as (Ft1 & Inc & P).
      destruct (IH f1 f' bs' (same_ready _ _ Sm Rd) W1 Ft1 (fun x X => I x (or_intror X)) E2) as (A & B).
      split; [eapply incl_tran; eauto|].
      intros x [<-|X] Px; [apply A; auto|]. apply B; [exact X|]. now rewrite (same_passes f f1).
  Qed.

  Lemma fits_defined : forall rs f, ready f -> wf f -> fits f -> (forall r, In r rs -> In (key_of r) K) ->
    counters_ok f (Z.of_nat (List.length rs)) -> exists f' bs, send_all f rs = Ret (f', bs).
  Proof.
    induction rs as [|r rs IH]; intros f Rd W Ft I C; cbn [send_all]; [eauto|].
    cbn [List.length] in C. rewrite Nat2Z.inj_succ in C. unfold Z.succ in C.
    destruct (send_defined f r Rd) as (f1 & b & E).
    { destruct C. split; lia. }
    { intros FN. exists (f_map f). apply make_room_id. eapply fits_room; eauto. apply I. now left. }
    rewrite E. cbn [bindO].
    pose proof (step f r f1 b Rd W E) as (Sm & W1 & _).
    destruct (fits_step f r f1 b Rd W Ft (I r (or_introl eq_refl)) E) as (Ft1 & _).
    destruct (IH f1) as (f2 & bs & E2); auto.
    - eapply same_ready; eauto.
    - intros x X. apply I. now right.
    - eapply counters_step; eauto. lia.
    - rewrite E2. cbn [bindO]. eauto.
  Qed.
End Defined.

(** ** One eviction *)
Section Oldest.
  Context {T : Type} {N : Num T} {V : NumVal T}.

  (** The last time of a record. *)
  Definition newest (ds : list T) : R := match back ds with Ret t => val t | _ => 0%R end.

  Definition sane (m : list (string * list T)) : Prop :=
    Forall (fun e => exists t, back (snd e) = Ret t /\ nfin t = true) m.

  Lemma oldest_min : forall m o e, sane (o :: m) -> oldest_of o m = Ret e ->
    In e (o :: m) /\ Forall (fun x => (newest (snd e) <= newest (snd x))%R) (o :: m).
  Proof.
    induction m as [|x m IH]; intros o e Sa E; cbn [oldest_of] in E.
    - assert (e = o) by congruence. subst. split; [now left|]. constructor; [lra | constructor].
    - inversion Sa as [|? ? (b & Eb & Fb) Sa']; subst. inversion Sa' as [|? ? (a & Ea & Fa) Sa'']; subst.
      rewrite Ea, Eb in E. cbn [bindO] in E.
      rewrite val_lt in E by (auto using fin_nan).
      assert (No : newest (snd o) = val b) by (unfold newest; now rewrite Eb).
      assert (Nx : newest (snd x) = val a) by (unfold newest; now rewrite Ea).
      destruct (Rltb_spec (val a) (val b)) as [L|L].
      + destruct (IH x e Sa' E) as (I & F). split; [destruct I as [<-|I]; [right; now left | right; now right]|].
        inversion F as [|? ? F1 F2]; subst. constructor; [lra | constructor; assumption].
      + destruct (IH o e) as (I & F); [constructor; [eauto | assumption] | exact E |].
        split; [destruct I as [<-|I]; [now left | right; now right]|].
        inversion F as [|? ? F1 F2]; subst. constructor; [lra | constructor; [lra | assumption]].
  Qed.

  Lemma sane_nonempty : forall m, sane m -> nonempty m.
  Proof.
    intros m Sa. eapply Forall_impl; [|exact Sa]. cbv beta. intros e (t & E & _) X. rewrite X in E. discriminate E.
  Qed.

  Lemma purge_min : forall m, sane m -> (2 <= List.length m)%nat ->
    exists k v, purge_messages m = Ret (map_erase k m) /\ In (k, v) (tl m) /\
      Forall (fun x => (newest v <= newest (snd x))%R) (tl m).
  Proof.
    intros m Sa L. destruct m as [|x [|o r]]; cbn [List.length] in L; try lia.
    inversion Sa as [|? ? S1 S2]; subst. cbn [purge_messages tl].
    pose proof (sane_nonempty _ S2) as NE. inversion NE; subst.
    destruct (oldest_defined (o :: r) o) as ([k v] & E & _ & _); auto.
    rewrite E. cbn [bindO fst]. exists k, v. split; [reflexivity|].
    destruct (oldest_min (o :: r) o (k, v)) as (I & F); [constructor; [now inversion S2 | exact S2] | exact E |].
    inversion F as [|? ? F1 F2]; subst. split; [|exact F2].
    destruct I as [<-|I]; [now left | exact I].
  Qed.
End Oldest.

(** ** The key *)

Lemma app_inj : forall a a' b b' : string,
  (a ++ bar ++ b)%string = (a' ++ bar ++ b')%string ->
  ~ In "124"%char (list_ascii_of_string a) -> ~ In "124"%char (list_ascii_of_string a') ->
  a = a' /\ b = b'.
Proof.
  unfold bar. induction a as [|x a IH]; intros [|x' a'] b b' E H H'; cbn [append list_ascii_of_string In] in *.
  - injection E as E. auto.
  - injection E as E1 E2. subst. tauto.
  - injection E as E1 E2. subst. tauto.
  - assert (x = x') by congruence. assert (E2 : (a ++ String "124" EmptyString ++ b)%string = (a' ++ String "124" EmptyString ++ b')%string) by (cbn [append]; congruence).
    destruct (IH a' b b' E2) as (-> & ->); [tauto | tauto |]. subst. auto.
Qed.

Lemma digits_no_bar : forall d, ~ In "124"%char (list_ascii_of_string (NilEmpty.string_of_uint d)).
Proof.
  induction d; cbn [NilEmpty.string_of_uint list_ascii_of_string In]; auto; (intros [X|X]; [discriminate X | auto]).
Qed.

Lemma dec_no_bar : forall z, ~ In "124"%char (list_ascii_of_string (dec_string z)).
Proof.
  intro z. unfold dec_string. destruct (Z.to_int z); cbn [NilEmpty.string_of_int].
  - apply digits_no_bar.
  - cbn [list_ascii_of_string In]. intros [X|X]; [discriminate X | now apply digits_no_bar in X].
Qed.

Lemma dec_inj : forall a b, dec_string a = dec_string b -> a = b.
Proof.
  intros a b E. unfold dec_string in E. apply DecimalZ.to_int_inj.
  apply (f_equal NilEmpty.int_of_string) in E. rewrite !NilEmpty.isi in E. congruence.
Qed.

Lemma end_inj : forall a b c : string, (a ++ c)%string = (b ++ c)%string -> a = b.
Proof.
  assert (L : forall a b, String.length (a ++ b)%string = (String.length a + String.length b)%nat).
  { induction a as [|x a IH]; intro b; cbn [append String.length Nat.add]; auto. }
  induction a as [|x a IH]; intros [|y b] c E; auto.
  - apply (f_equal String.length) in E. rewrite !L in E. cbn [String.length] in E. lia.
  - apply (f_equal String.length) in E. rewrite !L in E. cbn [String.length] in E. lia.
  - cbn [append] in E. assert (x = y) by congruence. assert (E2 : (a ++ c)%string = (b ++ c)%string) by congruence.
    rewrite (IH b c E2). congruence.
Qed.

Lemma key_inj {T} (r r' : Req T) :
  ~ In "124"%char (list_ascii_of_string (r_file r)) -> ~ In "124"%char (list_ascii_of_string (r_file r')) ->
  ~ In "124"%char (list_ascii_of_string (r_subsys r)) -> ~ In "124"%char (list_ascii_of_string (r_subsys r')) ->
  key_of r = key_of r' ->
  r_file r = r_file r' /\ r_line r = r_line r' /\ r_subsys r = r_subsys r' /\ r_text r = r_text r'.
Proof.
  intros A B C D E. unfold key_of in E.
  apply app_inj in E; auto. destruct E as (E1 & E).
  apply app_inj in E; auto using dec_no_bar. destruct E as (E2 & E).
  apply app_inj in E; auto. destruct E as (E3 & E).
  apply end_inj in E. auto using dec_inj.
Qed.
