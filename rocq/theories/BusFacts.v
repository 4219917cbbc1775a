(** Lemmas about the bus model. *)
From Coq Require Import Reals Lra Lia List Arith Bool ZArith.
From Verif Require Import Num Loops Bus Spec_Bus.
Import ListNotations.
Local Open Scope Z_scope.

(** ** Frame counters *)
Lemma s32_ext x y : x mod 2 ^ 32 = y mod 2 ^ 32 -> s32 x = s32 y.
Proof. unfold s32, u32. intros ->. reflexivity. Qed.

Lemma s32_small x : 0 <= x < 2 ^ 31 -> s32 x = x.
Proof.
  intros H. unfold s32, u32. rewrite Z.mod_small by lia.
  destruct (Z.ltb_spec x (2 ^ 31)); lia.
Qed.

Section COUNTS.
Context {S1 S2 K1 K2 : Type}.
Variable fa : nat -> K2 -> S1 -> S1.
Variable fb : nat -> K1 -> S2 -> S2.
Variable outa : S1 -> K1.
Variable outb : S2 -> K2.
Variables lab lba : nat.
Variable junka : nat -> K1.
Variable junkb : nat -> K2.
Variables (ca la : K1 -> Z) (cb lb : K2 -> Z) (lata : S1 -> Z).
Hypothesis Ha_c : forall k rx s, ca (outa (fa k rx s)) = u32 (ca (outa s) + 1).
Hypothesis Ha_l : forall k rx s, la (outa (fa k rx s)) = cb rx.
Hypothesis Ha_lat : forall k rx s, lata (fa k rx s) = s32 (u32 (ca (outa s) + 1) - lb rx).
Hypothesis Hb_l : forall k rx s, lb (outb (fb k rx s)) = ca rx.

Lemma count_a a b : pair_trace fa fb outa outb lab lba junka junkb a b ->
  forall k, ca (outa (a k)) mod 2 ^ 32 = (ca (outa (a O)) + Z.of_nat k) mod 2 ^ 32.
Proof.
  intros Htr. induction k as [|k IH].
  - f_equal. cbn. lia.
  - destruct (Htr k) as [-> _]. rewrite Ha_c. unfold u32. rewrite Z.mod_mod by lia.
    rewrite Z.add_mod, IH, <- Z.add_mod by lia. f_equal. lia.
Qed.

Lemma latency_a a b : pair_trace fa fb outa outb lab lba junka junkb a b ->
  Z.of_nat (lab + lba) < 2 ^ 31 ->
  forall k, (k >= 1 -> k >= lba + 1 -> k >= lab + lba -> lata (a k) = Z.of_nat (lab + lba))%nat.
Proof.
  intros Htr HL k H1 H2 H3. destruct k as [|k]; [lia|].
  pose proof (Htr k) as [HA _]. rewrite HA, Ha_lat.
  transitivity (s32 (Z.of_nat (lab + lba))); [|apply s32_small; lia].
  apply s32_ext. unfold received.
  destruct (Nat.ltb_spec (S k) lba) as [|Hge]; [lia|].
  assert (Hlb : lb (outb (b (S k - lba)%nat)) = ca (outa (a (S k - lba - lab)%nat))).
  { destruct (S k - lba)%nat as [|j] eqn:Hj; [lia|].
    destruct (Htr j) as [_ ->]. rewrite Hb_l. unfold received.
    destruct (Nat.ltb_spec (S j) lab); [lia|]. reflexivity. }
  rewrite Hlb. rewrite Zminus_mod, (count_a a b Htr (S k - lba - lab)).
  unfold u32. rewrite Z.mod_mod by lia.
  rewrite (Z.add_mod (ca (outa (a k))) 1), (count_a a b Htr k), <- Z.add_mod by lia.
  rewrite <- Zminus_mod. f_equal. lia.
Qed.
End COUNTS.

Lemma pair_trace_sym {S1 S2 K1 K2} fa fb outa outb lab lba junka junkb (a : nat -> S1) (b : nat -> S2) :
  pair_trace (K1 := K1) (K2 := K2) fa fb outa outb lab lba junka junkb a b ->
  pair_trace fb fa outb outa lba lab junkb junka b a.
Proof. intros H k. destruct (H k). auto. Qed.

(** ** One fluid frame, role by role *)
Section FRAME.
Context {T : Type} {N : Num T}.
Implicit Types (s : fbus (T := T)) (rx : packet (T := T)) (e : fenv (T := T)).

Definition prefers s rx : bool :=
  (p_cap (b_out s) <~ p_cap rx) || (b_master s && (p_cap (b_out s) ==~ p_cap rx)).

(** Role after the inputs, for an interface without a forced role. *)
Definition dem1 s rx : bool :=
  if has_valid_data rx then
    if in_demand s && p_dem rx && negb (b_last s) then false
    else if negb (p_dem rx) && negb (in_demand s) && prefers s rx then true
    else in_demand s
  else in_demand s.

Definition lat1 s rx : Z := s32 (u32 (p_count (b_out s) + 1) - p_loop rx).
Definition since1 s rx : Z := if eqb (dem1 s rx) (in_demand s) then b_since s + 1 else 0.
Definition dem2 e s rx : bool :=
  dem1 s rx || ((lat1 s rx <? since1 s rx) && (e_cap e *~ moding_ratio <~ p_cap rx)).

Lemma fframe_spec e rx s : b_force s = RNone ->
  let s' := fframe e rx s in
  in_demand s' = dem2 e s rx /\
  b_last s' = (if has_valid_data rx then p_dem rx else b_last s) /\
  b_since s' = (if eqb (dem2 e s rx) (dem1 s rx) then since1 s rx else 0) /\
  b_lat s' = lat1 s rx /\
  b_force s' = RNone /\ b_master s' = b_master s /\
  p_cap (b_out s') = e_cap e /\
  p_count (b_out s') = u32 (p_count (b_out s) + 1) /\
  p_loop (b_out s') = p_count rx.
Proof.
  intros Hf. cbn zeta.
  unfold fframe, process_inputs.
  set (s1 := update_frame_counts (set_in s rx)).
  assert (E1 : b_force s1 = RNone) by exact Hf.
  assert (K : let t := flip_on_input s1 in
     in_demand t = dem1 s rx /\ b_last t = (if has_valid_data rx then p_dem rx else b_last s) /\
     b_since t = since1 s rx /\ b_lat t = lat1 s rx /\ b_force t = RNone /\ b_master t = b_master s /\
     p_count (b_out t) = u32 (p_count (b_out s) + 1) /\ p_loop (b_out t) = p_count rx /\ b_in t = rx).
  { cbn zeta. unfold flip_on_input. rewrite E1. cbn [andb].
    unfold since1, dem1, prefers.
    change (b_in s1) with rx. change (in_demand s1) with (in_demand s).
    change (p_dem (b_out s1)) with (in_demand s). change (b_last s1) with (b_last s).
    change (p_cap (b_out s1)) with (p_cap (b_out s)). change (b_master s1) with (b_master s).
    unfold flip_to_supply, flip_to_demand. rewrite E1.
    destruct (has_valid_data rx); cbn [andb].
    - destruct (in_demand s && p_dem rx && negb (b_last s)) eqn:C1.
      + assert (Hd : in_demand s = true) by (destruct (in_demand s); [auto | cbn in C1; congruence]).
        rewrite Hd. cbn. repeat split; auto.
      + destruct (negb (p_dem rx) && negb (in_demand s)) eqn:C2; cbn [andb].
        * assert (Hd : in_demand s = false) by (destruct (in_demand s); [destruct (p_dem rx); cbn in C2; congruence | auto]).
          destruct ((p_cap (b_out s) <~ p_cap rx) || b_master s && (p_cap (b_out s) ==~ p_cap rx)).
          -- rewrite Hd. cbn. repeat split; auto.
          -- rewrite eqb_reflx. cbn. repeat split; auto.
        * rewrite eqb_reflx. cbn. repeat split; auto.
    - rewrite eqb_reflx. cbn. repeat split; auto. }
  cbn zeta in K. destruct K as (K1 & K2 & K3 & K4 & K5 & K6 & K7 & K8 & K9).
  set (t := flip_on_input s1) in *. clearbody t. clear s1 E1.
  assert (M : let u := set_state e t in
     in_demand u = dem1 s rx /\ b_last u = b_last t /\ b_since u = b_since t /\ b_lat u = b_lat t /\
     b_force u = RNone /\ b_master u = b_master t /\ p_count (b_out u) = p_count (b_out t) /\
     p_loop (b_out u) = p_loop (b_out t) /\ b_in u = b_in t).
  { cbn zeta. unfold set_state, set_flow_state, set_fluid_state.
    destruct (in_demand t) eqn:Ht; cbn [negb]; cbn; unfold in_demand in *; cbn; repeat split; congruence. }
  cbn zeta in M. destruct M as (M1 & M2 & M3 & M4 & M5 & M6 & M7 & M8 & M9).
  set (u := set_state e t) in *. clearbody u.
  unfold process_outputs.
  change (in_demand (set_out u (p_with_cap (b_out u) (e_cap e)))) with (in_demand u).
  rewrite M1. unfold dem2.
  destruct (dem1 s rx) eqn:D1; cbn [negb orb].
  - cbn. unfold in_demand in *. cbn. repeat split; congruence.
  - unfold flip_on_capacitance.
    change (b_lat (set_out u (p_with_cap (b_out u) (e_cap e)))) with (b_lat u).
    change (b_since (set_out u (p_with_cap (b_out u) (e_cap e)))) with (b_since u).
    change (p_cap (b_out (set_out u (p_with_cap (b_out u) (e_cap e))))) with (e_cap e).
    change (b_in (set_out u (p_with_cap (b_out u) (e_cap e)))) with (b_in u).
    rewrite M4, M3, M9, K4, K3, K9.
    destruct ((lat1 s rx <? since1 s rx) && (e_cap e *~ moding_ratio <~ p_cap rx)).
    + unfold flip_to_demand. cbn [set_out b_force]. rewrite M5. cbn. repeat split; congruence.
    + cbn. unfold in_demand in *. cbn. repeat split; congruence.
Qed.

(** Counter effects whatever the forced role. *)
Lemma fframe_counts e rx s :
  p_count (b_out (fframe e rx s)) = u32 (p_count (b_out s) + 1) /\
  p_loop (b_out (fframe e rx s)) = p_count rx /\
  b_lat (fframe e rx s) = s32 (u32 (p_count (b_out s) + 1) - p_loop rx).
Proof.
  unfold fframe, process_inputs.
  set (s1 := update_frame_counts (set_in s rx)).
  assert (H1 : p_count (b_out s1) = u32 (p_count (b_out s) + 1) /\ p_loop (b_out s1) = p_count rx /\
               b_lat s1 = s32 (u32 (p_count (b_out s) + 1) - p_loop rx)) by (cbn; auto).
  destruct H1 as (<- & <- & <-). clearbody s1.
  assert (FD : forall s, p_count (b_out (flip_to_demand s)) = p_count (b_out s) /\
                         p_loop (b_out (flip_to_demand s)) = p_loop (b_out s) /\
                         b_lat (flip_to_demand s) = b_lat s)
    by (intros s'; unfold flip_to_demand; destruct (b_force s'); cbn; auto).
  assert (FS : forall s, p_count (b_out (flip_to_supply s)) = p_count (b_out s) /\
                         p_loop (b_out (flip_to_supply s)) = p_loop (b_out s) /\
                         b_lat (flip_to_supply s) = b_lat s)
    by (intros s'; unfold flip_to_supply; destruct (b_force s'); cbn; auto).
  assert (H2 : forall s, let t := flip_on_input s in p_count (b_out t) = p_count (b_out s) /\
                p_loop (b_out t) = p_loop (b_out s) /\ b_lat t = b_lat s).
  { intros s'. cbn zeta. unfold flip_on_input.
    repeat match goal with |- context [if ?c then _ else _] =>
      match c with context [b_force] => destruct c | context [has_valid_data] => destruct c
        | _ => destruct c end end; cbn [set_last b_out b_lat]; auto; apply FD || apply FS. }
  assert (H3 : forall s, let t := set_state e s in p_count (b_out t) = p_count (b_out s) /\
                p_loop (b_out t) = p_loop (b_out s) /\ b_lat t = b_lat s).
  { intros s'. cbn zeta. unfold set_state, set_flow_state, set_fluid_state.
    destruct (in_demand s'); cbn; auto. }
  assert (H4 : forall s, let t := process_outputs (e_cap e) s in p_count (b_out t) = p_count (b_out s) /\
                p_loop (b_out t) = p_loop (b_out s) /\ b_lat t = b_lat s).
  { intros s'. cbn zeta. unfold process_outputs, flip_on_capacitance.
    destruct (in_demand _); cbn [negb]; [cbn; auto|].
    match goal with |- context [if ?c then _ else _] => destruct c end; [|cbn; auto].
    match goal with |- context [flip_to_demand ?x] => destruct (FD x) as (A & B & C) end.
    cbn [set_out b_out p_with_data p_count p_loop b_lat] in *.
    rewrite A, B, C. cbn. auto. }
  specialize (H4 (set_state e (flip_on_input s1))). specialize (H3 (flip_on_input s1)). specialize (H2 s1).
  cbn zeta in *. destruct H2 as (A1 & A2 & A3), H3 as (B1 & B2 & B3), H4 as (C1 & C2 & C3).
  repeat split; congruence.
Qed.
End FRAME.

Lemma eframe_counts {T} {N : Num T} (e : eenv (T := T)) rx s :
  q_count (c_out (eframe e rx s)) = u32 (q_count (c_out s) + 1) /\
  q_loop (c_out (eframe e rx s)) = q_count rx /\
  c_lat (eframe e rx s) = s32 (u32 (q_count (c_out s) + 1) - q_loop rx).
Proof.
  unfold eframe, eupdate. destruct (edecide _ _) as [[d n] l]. cbn. auto.
Qed.
