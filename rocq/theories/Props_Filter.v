(** * The properties of the message rate filter *)
From Coq Require Import Floats List ZArith Bool Lia Reals Lra String Ascii.
From Verif Require Import Num Ord Round MsgQueue MsgFilter Spec_Filter MsgFilterFacts.
Import ListNotations.
Local Open Scope string_scope.
Local Open Scope Z_scope.

Lemma empty_wf {T} (f : Filter T) : f_map f = [] -> wf f.
Proof. intro E. unfold wf. rewrite E. split; constructor. Qed.

(** ** C42 *)

(** In every closed window of the length of the interval at most the configured
    count of messages with one key is let through.  The number type is the reals or
    binary64. *)
Theorem C42_limit : forall (T : Type) (N : Num T) (V : NumVal T) (f : Filter T) rs f' bs k,
  ready f -> f_map f = [] -> in_time k None rs -> kept k f rs -> send_all f rs = Ret (f', bs) ->
  forall a : R, Z.of_nat (in_window a (a + IZR (f_interval f)) (sent k rs bs)) <= f_count f.
Proof.
  intros T N V f rs f' bs k Rd Em It Kp E.
  destruct (run k rs f [] None false f' bs) as (A & _); auto using empty_wf.
  - unfold run_inv. rewrite Em. cbn [map_find]. auto.
  - apply limit_nil. apply Rd.
  - intros n f1 bs1 E1 [X|X]; [discriminate X|]. now apply (Kp n f1 bs1).
Qed.
Print Assumptions C42_limit.

(** A message that passes the type filter is let through exactly when fewer than the
    configured count with its key were let through in the window that ends now. *)
Theorem C42_answer : forall (T : Type) (N : Num T) (V : NumVal T) (f : Filter T) rs f' bs k,
  ready f -> f_map f = [] -> in_time k None rs -> kept k f rs -> send_all f rs = Ret (f', bs) ->
  forall i r, nth_error rs i = Some r -> key_of r = k -> passes f r = true ->
    nth_error bs i = Some
      (Z.of_nat (in_window (val (r_time r -~ ndec (f_interval f) 0)) (val (r_time r))
                   (sent k (firstn i rs) (firstn i bs))) <? f_count f).
Proof.
  intros T N V f rs f' bs k Rd Em It Kp E i r X Y Z.
  destruct (run k rs f [] None false f' bs) as (_ & B); auto using empty_wf.
  - unfold run_inv. rewrite Em. cbn [map_find]. auto.
  - apply limit_nil. apply Rd.
  - intros n f1 bs1 E1 [W|W]; [discriminate W|]. now apply (Kp n f1 bs1).
  - now apply B.
Qed.
Print Assumptions C42_answer.

(** A message of a filtered type is never let through. *)
Theorem C42_filtered_type : forall (T : Type) (N : Num T) (f : Filter T) r f' b,
  ready f -> wf f -> passes f r = false -> should_send f r = Ret (f', b) ->
  b = false /\ f_map f' = f_map f.
Proof.
  intros T N f r f' b Rd W P E. destruct (step f r f' b Rd W E) as (_ & _ & _ & _ & A & _). auto.
Qed.
Print Assumptions C42_filtered_type.

(** With no more different messages than the history holds, every call returns and
    no record is forgotten. *)
Theorem C42_few_keys : forall (T : Type) (N : Num T) (f : Filter T) rs,
  ready f -> f_map f = [] -> Z.of_nat (List.length (keys rs)) <= f_history f ->
  f_processed f + Z.of_nat (List.length rs) <= int_max ->
  f_suppressed f + Z.of_nat (List.length rs) <= int_max ->
  (exists f' bs, send_all f rs = Ret (f', bs)) /\ forall k, kept k f rs.
Proof.
  intros T N f rs Rd Em L P1 P2.
  assert (Ft : fits (keys rs) f) by (unfold fits; rewrite Em; split; [intros x [] | exact L]).
  assert (In1 : forall r, In r rs -> In (key_of r) (keys rs)).
  { intros r I. unfold keys. apply nodup_In. now apply in_map. }
  split.
  - apply (fits_defined (keys rs)); auto using empty_wf. now split.
  - intros k n f' bs E (r & I & Ek & P) FN.
    assert (In2 : forall r, In r (firstn n rs) -> In (key_of r) (keys rs)).
    { intros x X. apply In1. rewrite <- (firstn_skipn n rs). apply in_or_app. now left. }
    destruct (fits_run (keys rs) (firstn n rs) f f' bs Rd (empty_wf f Em) Ft In2 E) as (_ & A).
    specialize (A r I P). apply find_none in FN. rewrite Ek in A. contradiction.
Qed.
Print Assumptions C42_few_keys.

(** The two parts together for binary64 time stamps. *)
Theorem C42_binary64 : forall (f : Filter float) rs,
  ready f -> f_map f = [] -> Z.of_nat (List.length (keys rs)) <= f_history f ->
  f_processed f + Z.of_nat (List.length rs) <= int_max ->
  f_suppressed f + Z.of_nat (List.length rs) <= int_max ->
  exists f' bs, send_all f rs = Ret (f', bs) /\
    forall k, in_time k None rs ->
      (forall a : R, Z.of_nat (in_window a (a + IZR (f_interval f)) (sent k rs bs)) <= f_count f) /\
      (forall i r, nth_error rs i = Some r -> key_of r = k -> passes f r = true ->
        nth_error bs i = Some
          (Z.of_nat (in_window (val (r_time r -~ ndec (f_interval f) 0)) (val (r_time r))
                       (sent k (firstn i rs) (firstn i bs))) <? f_count f)).
Proof.
  intros f rs Rd Em L P1 P2.
  destruct (C42_few_keys float FNum f rs Rd Em L P1 P2) as ((f' & bs & E) & K).
  exists f', bs. split; [exact E|]. intros k It. split.
  - eapply C42_limit; eauto.
  - eapply C42_answer; eauto.
Qed.
Print Assumptions C42_binary64.

(** The setters keep the settings in range, whatever they are given. *)
Theorem C42_setters : forall (T : Type) (f : Filter T) (x : Z),
  ready f -> x <= int_max ->
  ready (set_interval f x) /\ ready (set_count f x) /\ ready (set_history f x) /\
  (forall t b, ready (set_type_filter f t b)) /\ ready (filter_restart f) /\
  ready (set_enabled (set_enabled f false) true).
Proof.
  intros T f x (A & B & C & D & I) H.
  unfold ready, set_interval, set_count, set_history.
  repeat split; destruct (Z.ltb_spec 0 x); cbn; auto; lia.
Qed.
Print Assumptions C42_setters.

Theorem C42_new : forall T : Type, ready (filter_new (T := T)) /\ f_map (filter_new (T := T)) = [].
Proof.
  intro T. unfold ready. cbn. repeat split; try reflexivity; try lia; unfold int_max; lia.
Qed.
Print Assumptions C42_new.

Definition msg42 (t : float) (text : string) : Req float := mkReq t "a.cpp" 7 1 "sys" text.

(** Three sends at 0, 30 and 60 with a limit of two a minute: the third is held back,
    the one at 61 passes. *)
Example C42_example :
  exists f', send_all filter_new [msg42 0 "x"; msg42 30 "x"; msg42 45 "y"; msg42 60 "x"; msg42 61 "x"]
             = Ret (f', [true; true; true; false; true]).
Proof. eexists. vm_compute. reflexivity. Qed.
Example C42_example_hyps :
  in_time (key_of (msg42 0 "x")) None [msg42 0 "x"; msg42 30 "x"; msg42 45 "y"; msg42 60 "x"; msg42 61 "x"] /\
  Z.of_nat (List.length (keys [msg42 0 "x"; msg42 30 "x"; msg42 45 "y"; msg42 60 "x"; msg42 61 "x"])) <= 25.
Proof.
  assert (L : forall z w : Z, Z.abs z <= 2 ^ 53 -> Z.abs w <= 2 ^ 53 -> z <= w ->
     (val (ndec (T := float) z 0) <= val (ndec (T := float) w 0))%R).
  { intros z w Hz Hw Hl. destruct (val_int (T := float) z Hz) as (_ & ->). destruct (val_int (T := float) w Hw) as (_ & ->). now apply IZR_le. }
  assert (F : forall z : Z, Z.abs z <= 2 ^ 53 -> nfin (ndec (T := float) z 0) = true).
  { intros z Hz. now apply val_int. }
  change 0%float with (ndec (T := float) 0 0). change 30%float with (ndec (T := float) 30 0).
  change 45%float with (ndec (T := float) 45 0).
  change 60%float with (ndec (T := float) 60 0). change 61%float with (ndec (T := float) 61 0).
  split; [|vm_compute; discriminate].
  assert (Ey : String.eqb (key_of (msg42 (ndec 45 0) "y")) (key_of (msg42 (ndec 0 0) "x")) = false) by (vm_compute; reflexivity).
  assert (Ex : forall t, String.eqb (key_of (msg42 t "x")) (key_of (msg42 (ndec 0 0) "x")) = true) by (intro; reflexivity).
  cbn [in_time]. rewrite Ey, !Ex. cbn [r_time msg42].
  repeat split; (apply F || apply L); cbn; lia.
Qed.

(** ** C43 *)

(** A history of one record: the second message makes the filter erase the end of
    its map, which is undefined behaviour. *)
Theorem C43_history_of_one_refuted : exists rs : list (Req float),
  f_history (set_history filter_new 1 : Filter float) = 1 /\
  ready (set_history filter_new 1 : Filter float) /\
  send_all (set_history filter_new 1) rs = UB.
Proof.
  exists [msg42 0 "x"; msg42 1 "y"]. split; [reflexivity|]. split.
  - apply (C42_setters float filter_new 1); [apply C42_new | unfold int_max; lia].
  - vm_compute. reflexivity.
Qed.
Print Assumptions C43_history_of_one_refuted.

(** A history of two records: the older one is kept and the newer one forgotten. *)
Theorem C43_wrong_victim_refuted : exists (f f' : Filter float) (r : Req float) k1 k2 t1 t2,
  send_all (set_history filter_new 2) [msg42 0 "x"; msg42 10 "y"] = Ret (f, [true; true]) /\
  f_map f = [(k1, [t1]); (k2, [t2])] /\ (t1 <~ t2) = true /\
  should_send f r = Ret (f', true) /\
  map_find k1 (f_map f') <> None /\ map_find k2 (f_map f') = None.
Proof.
  destruct (send_all (set_history filter_new 2) [msg42 0 "x"; msg42 10 "y"]) as [[f bs]| |] eqn:E;
    [|vm_compute in E; discriminate E | vm_compute in E; discriminate E].
  destruct (should_send f (msg42 20 "z")) as [[f' b]| |] eqn:E'.
  2,3: vm_compute in E; injection E as <- <-; vm_compute in E'; discriminate E'.
  exists f, f', (msg42 20 "z"), (key_of (msg42 0 "x")), (key_of (msg42 10 "y")), 0%float, 10%float.
  vm_compute in E. injection E as <- <-. vm_compute in E'. injection E' as <- <-.
  repeat split; try (vm_compute; reflexivity). vm_compute. discriminate.
Qed.
Print Assumptions C43_wrong_victim_refuted.

(** The forgotten message is in fact the one sent least recently among all but the
    first in key order. *)
Theorem C43_victim : forall (T : Type) (N : Num T) (V : NumVal T) (m : list (string * list T)),
  sane m -> (2 <= List.length m)%nat ->
  exists k v, purge_messages m = Ret (map_erase k m) /\ In (k, v) (tl m) /\
    forall k' v', In (k', v') (tl m) -> (newest v <= newest v')%R.
Proof.
  intros T N V m Sa L. destruct (purge_min m Sa L) as (k & v & A & B & C).
  exists k, v. split; [exact A|]. split; [exact B|]. intros k' v' I.
  rewrite Forall_forall in C. exact (C _ I).
Qed.
Print Assumptions C43_victim.

(** With a history of at least two records no call crashes and the history stays
    within its size. *)
Theorem C43_two_or_more : forall (T : Type) (N : Num T) (f : Filter T) rs,
  ready f -> f_map f = [] -> 2 <= f_history f ->
  f_processed f + Z.of_nat (List.length rs) <= int_max ->
  f_suppressed f + Z.of_nat (List.length rs) <= int_max ->
  exists f' bs, send_all f rs = Ret (f', bs) /\ Z.of_nat (List.length (f_map f')) <= f_history f.
Proof.
  intros T N f rs Rd Em H2 P1 P2.
  destruct (run_defined rs f Rd (empty_wf f Em) H2 (conj P1 P2)) as (f' & bs & E).
  exists f', bs. split; [exact E|].
  destruct (size_run rs f f' bs Rd (empty_wf f Em) H2) as (A & _ & Sm); [rewrite Em; cbn; lia | exact E |].
  destruct Sm as (_ & _ & _ & _ & _ & <-). exact A.
Qed.
Print Assumptions C43_two_or_more.

(** The record that is first in key order is never forgotten. *)
Theorem C43_first_stays : forall (T : Type) (N : Num T) (h : Z) (m m' : list (string * list T)),
  2 <= h -> sorted m -> nonempty m -> make_room (S (List.length m)) h m = Ret m' ->
  hd_error m' = hd_error m.
Proof.
  intros T N h m m' Hh Sm F E.
  destruct (make_room_ok (S (List.length m)) h m) as (m1 & E1 & _ & _ & _ & _ & H); auto. congruence.
Qed.
Print Assumptions C43_first_stays.

Definition map43 : list (string * list R) :=
  [("a", [3%R]); ("b", [2%R]); ("c", [1%R])].
Example C43_example_sane : sane map43.
Proof. repeat constructor; cbn; eexists; split; reflexivity. Qed.
Example C43_example : exists f' bs, send_all (set_history filter_new 2)
   [msg42 0 "x"; msg42 10 "y"; msg42 20 "z"; msg42 30 "w"] = Ret (f', bs) /\ List.length (f_map f') = 2%nat.
Proof. eexists; eexists. vm_compute. split; reflexivity. Qed.

(** ** C71 *)

(** Messages whose file and subsystem have no bar share a record only if they agree
    in file, line, subsystem and text. *)
Theorem C71_separate_records : forall (T : Type) (r r' : Req T),
  let no_bar s := ~ In "124"%char (list_ascii_of_string s) in
  no_bar (r_file r) -> no_bar (r_file r') -> no_bar (r_subsys r) -> no_bar (r_subsys r') ->
  (key_of r = key_of r' <->
   r_file r = r_file r' /\ r_line r = r_line r' /\ r_subsys r = r_subsys r' /\ r_text r = r_text r').
Proof.
  intros T r r' nb A B C D. split.
  - now apply key_inj.
  - intros (E1 & E2 & E3 & E4). unfold key_of. now rewrite E1, E2, E3, E4.
Qed.
Print Assumptions C71_separate_records.
Example C71_example : key_of (msg42 0 "x") <> key_of (msg42 0 "y").
Proof. vm_compute. discriminate. Qed.

(** In general they do not: a message never sent before is held back because of the
    others. *)
Theorem C71_collision_refuted : exists (f' : Filter float) (r1 r2 : Req float),
  r_subsys r1 <> r_subsys r2 /\ r_text r1 <> r_text r2 /\
  send_all filter_new [r1; r1; r2] = Ret (f', [true; true; false]).
Proof.
  eexists. exists (mkReq 0%float "a.cpp" 7 1 "A|B" "C"), (mkReq 1%float "a.cpp" 7 1 "A" "B|C").
  split; [discriminate|]. split; [discriminate|]. vm_compute. reflexivity.
Qed.
Print Assumptions C71_collision_refuted.

(** ** C72 *)

(** The two counters count the calls and the messages held back. *)
Theorem C72_counters : forall (T : Type) (N : Num T) (f : Filter T) rs f' bs,
  ready f -> wf f -> send_all f rs = Ret (f', bs) ->
  List.length bs = List.length rs /\
  f_processed f' = f_processed f + Z.of_nat (List.length rs) /\
  f_suppressed f' = f_suppressed f + Z.of_nat (count_occ bool_dec bs false).
Proof. intros. eapply count_run; eauto. Qed.
Print Assumptions C72_counters.

(** A disabled filter lets everything through and does not change. *)
Theorem C72_disabled : forall (T : Type) (N : Num T) (f : Filter T) rs,
  f_enabled f = false -> send_all f rs = Ret (f, repeat true (List.length rs)).
Proof.
  intros T N f rs E. induction rs as [|r rs IH]; cbn [send_all List.length repeat]; [reflexivity|].
  unfold should_send. rewrite E. cbn [negb bindO]. now rewrite IH.
Qed.
Print Assumptions C72_disabled.

(** When another thread holds the mutex and the filter does not block, the message
    is held back, counted as a failed lock and nothing else changes. *)
Theorem C72_busy : forall (T : Type) (N : Num T) (f : Filter T) r,
  f_enabled f = true -> f_lock f = true -> f_blocking f = false -> f_fails f < int_max ->
  exists f', should_send f r = Ret (f', false) /\ f_fails f' = f_fails f + 1 /\ f_map f' = f_map f /\
    f_processed f' = f_processed f /\ f_suppressed f' = f_suppressed f /\ f_lock f' = true.
Proof.
  intros T N f r A B C D. unfold should_send. rewrite A, B, C. cbn [negb].
  rewrite int_inc_ok by exact D. cbn [bindO]. eexists. split; [reflexivity|]. cbn. repeat split; auto.
Qed.
Print Assumptions C72_busy.
Example C72_example : exists f' bs,
  send_all (filter_new (T := float)) [msg42 0 "x"; msg42 1 "x"; msg42 2 "x"] = Ret (f', bs) /\ f_processed f' = 3 /\ f_suppressed f' = 1.
Proof. eexists; eexists. vm_compute. repeat split; reflexivity. Qed.
