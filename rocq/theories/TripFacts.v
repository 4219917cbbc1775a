(** One flow update of GunnsElectSwitchUtil in closed form. *)
From Coq Require Import Lia List Arith Bool ZArith.
From Verif Require Import Num Trip.
Import ListNotations.

Section SW.
Context {T : Type} {N : Num T}.
Implicit Types s : sw (T := T).

(** The trip decisions, spelled out. *)
Definition over s (b : T) : bool := s_apos s <~ b.
Definition under s (b : T) : bool := b <~ s_aneg s.
Definition seen s (b : T) : T := if s_closed s then b else n0.
Definition at_prio s (k : Z) : bool := (s_prio s <=? k)%Z.

Definition f_pos (volt : T) (k : Z) s : sw :=
  if s_apos s <~ s_sens s then
    if (s_prio s <=? k)%Z
    then flow_with s n0 (s_sens s) volt (s_power s) false true (s_neg s) false (s_just s)
    else flow_with s (s_cur s) (s_sens s) volt (s_power s) (s_closed s) false (s_neg s) true (s_just s)
  else s.
Definition f_neg (volt : T) (k : Z) s : sw :=
  if s_sens s <~ s_aneg s then
    if (s_prio s <=? k)%Z
    then flow_with s n0 (s_sens s) volt (s_power s) false (s_pos s) true false (s_just s)
    else flow_with s (s_cur s) (s_sens s) volt (s_power s) (s_closed s) (s_pos s) false true (s_just s)
  else s.
Definition f_ext (volt : T) s : sw :=
  if s_ext s && s_closed s
  then flow_with s n0 (s_sens s) volt (s_power s) false (s_pos s) (s_neg s) false (s_just s)
  else s.
Definition f_trips (volt : T) (k : Z) s : sw :=
  if negb (s_fclosed s) then
    f_ext volt (if s_prot s then f_neg volt k (f_pos volt k s) else s)
  else s.
Definition f_in (a b v : T) s : sw :=
  flow_with s (if s_closed s then a else n0) (seen s b) v (s_power s) (s_closed s) (s_pos s) (s_neg s) false (s_just s).
Definition f_out (v : T) (m start : bool) s : sw :=
  flow_with s (s_cur s) (s_sens s) v
    (if n0 <~ conductance s then nabs (s_cur s *~ s_cur s) /~ conductance s else n0)
    (s_closed s) (s_pos s) (s_neg s) (s_wait s) (if m then s_just s else s_tripped s && negb start).

Lemma update_flow_split a b v k m s :
  update_flow a b v k m s = f_out v m (s_tripped s) (f_trips v k (f_in a b v s)).
Proof. reflexivity. Qed.

Ltac sw_cbn := cbn [s_fclosed s_fopen s_fres s_fpct s_mpos s_mneg s_ign s_cur s_sens s_volt s_power s_cmd s_closed
       s_pos s_neg s_ext s_wait s_just s_prio s_reset s_dres s_ares s_prot s_dpos s_apos s_dneg s_aneg flow_with
       negb andb orb].

(** The middle part in closed form. *)
Lemma f_trips_form v k s : s_volt s = v -> s_wait s = false -> (s_closed s = false -> s_cur s = n0) ->
  f_trips v k s =
  let live := negb (s_fclosed s) && s_prot s in
  let p := live && over s (s_sens s) in let n := live && under s (s_sens s) in
  let opens := (p || n) && at_prio s k || negb (s_fclosed s) && s_ext s in
  flow_with s (if opens then n0 else s_cur s) (s_sens s) v (s_power s)
    (s_closed s && negb opens)
    (if p then at_prio s k else s_pos s) (if n then at_prio s k else s_neg s)
    ((p || n) && negb (at_prio s k) && negb (negb (s_fclosed s) && s_ext s && s_closed s)) (s_just s).
Proof.
  destruct s as [fc fo fr pct mp mn ig cur sens volt pw cmd clo pos neg ext wt ju pr rs dr ar pt dp ap dn an].
  unfold f_trips, f_ext, f_neg, f_pos, over, under, at_prio. sw_cbn. intros Hv -> Hc. subst volt.
  destruct fc; sw_cbn; [rewrite ?andb_true_r; reflexivity|].
  destruct pt; sw_cbn.
  - destruct (ap <~ sens) eqn:E1; sw_cbn; [destruct (pr <=? k)%Z eqn:E3; sw_cbn|];
      (destruct (sens <~ an) eqn:E2; sw_cbn; [rewrite ?E3; destruct (pr <=? k)%Z eqn:E4; sw_cbn; try discriminate|]);
      destruct ext, clo; sw_cbn; try rewrite Hc by reflexivity; try reflexivity.
  - destruct ext, clo; sw_cbn; try rewrite Hc by reflexivity; reflexivity.
Qed.

Lemma update_flow_form a b v k m s :
  let live := negb (s_fclosed s) && s_prot s in
  let p := live && over s (seen s b) in let n := live && under s (seen s b) in
  let opens := (p || n) && at_prio s k || negb (s_fclosed s) && s_ext s in
  let closed := s_closed s && negb opens in
  let cur := if closed then a else n0 in
  let g := if closed then (if n0 <~ s_ares s then n1 /~ s_ares s else conductance_limit) else n0 in
  let pos := if p then at_prio s k else s_pos s in
  let neg := if n then at_prio s k else s_neg s in
  update_flow a b v k m s =
  flow_with s cur (seen s b) v (if n0 <~ g then nabs (cur *~ cur) /~ g else n0) closed pos neg
    ((p || n) && negb (at_prio s k) && negb (negb (s_fclosed s) && s_ext s && s_closed s))
    (if m then s_just s else (pos || neg || s_ext s) && negb (s_pos s || s_neg s || s_ext s)).
Proof.
  cbv zeta. rewrite update_flow_split, f_trips_form.
  2: reflexivity. 2: reflexivity. 2: { unfold f_in. sw_cbn. intro H. now rewrite H. }
  unfold f_in, over, under, at_prio. sw_cbn. cbv zeta.
  set (p := negb (s_fclosed s) && s_prot s && (s_apos s <~ seen s b)).
  set (n := negb (s_fclosed s) && s_prot s && (seen s b <~ s_aneg s)).
  set (o := (p || n) && (s_prio s <=? k)%Z || negb (s_fclosed s) && s_ext s).
  unfold f_out, conductance, s_tripped. sw_cbn.
  assert (C : (if o then n0 else if s_closed s then a else n0) = if s_closed s && negb o then a else n0)
    by (destruct o, (s_closed s); reflexivity).
  rewrite C. reflexivity.
Qed.

End SW.

Ltac sw_cbn := cbn [s_fclosed s_fopen s_fres s_fpct s_mpos s_mneg s_ign s_cur s_sens s_volt s_power s_cmd s_closed
       s_pos s_neg s_ext s_wait s_just s_prio s_reset s_dres s_ares s_prot s_dpos s_apos s_dneg s_aneg flow_with
       negb andb orb].
