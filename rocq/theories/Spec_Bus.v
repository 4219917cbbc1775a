(** Two interfaces exchanging one packet per frame over channels with a fixed
    delay and no loss. *)
From Coq Require Import Lia List Arith Bool ZArith.
Import ListNotations.

Section PAIR.
Context {S1 S2 K1 K2 : Type}.

(** The packet received in frame [k] over a channel of delay [l]: what the other
    side had at the end of its frame [k - l]; before that, what was in the
    channel at the start ([junk i] was sent [i] frames before frame 0). *)
Definition received {K} (l : nat) (junk : nat -> K) (sent : nat -> K) (k : nat) : K :=
  if k <? l then junk (l - k) else sent (k - l).

(** [fa k rx s]: side A's frame [k]. *)
Variable fa : nat -> K2 -> S1 -> S1.
Variable fb : nat -> K1 -> S2 -> S2.
Variable outa : S1 -> K1.
Variable outb : S2 -> K2.
Variables lab lba : nat.
Variable junka : nat -> K1.
Variable junkb : nat -> K2.

Definition pair_trace (a : nat -> S1) (b : nat -> S2) : Prop :=
  forall k,
    a (S k) = fa (S k) (received lba junkb (fun i => outb (b i)) (S k)) (a k) /\
    b (S k) = fb (S k) (received lab junka (fun i => outa (a i)) (S k)) (b k).

(** Execution: histories, newest first; side A moves first in a frame. *)
Definition recv_hist {K S} (out : S -> K) (l : nat) (junk : nat -> K) (d : S) (hist : list S) (k : nat) : K :=
  (* hist = states of frames k', k'-1, ..., 0 with k' = length hist - 1 *)
  if k <? l then junk (l - k) else out (nth (length hist - 1 - (k - l)) hist d).

Fixpoint sim (a0 : S1) (b0 : S2) (n : nat) : list S1 * list S2 :=
  match n with
  | O => ([a0], [b0])
  | S m =>
      let (ha, hb) := sim a0 b0 m in
      let a' := fa (S m) (recv_hist outb lba junkb b0 hb (S m)) (hd a0 ha) in
      let ha' := a' :: ha in
      let b' := fb (S m) (recv_hist outa lab junka a0 ha' (S m)) (hd b0 hb) in
      (ha', b' :: hb)
  end.
Definition sim_a a0 b0 n := hd a0 (fst (sim a0 b0 n)).
Definition sim_b a0 b0 n := hd b0 (snd (sim a0 b0 n)).

Lemma sim_S a0 b0 m :
  fst (sim a0 b0 (S m)) = sim_a a0 b0 (S m) :: fst (sim a0 b0 m) /\
  snd (sim a0 b0 (S m)) = sim_b a0 b0 (S m) :: snd (sim a0 b0 m).
Proof. unfold sim_a, sim_b. cbn [sim]. destruct (sim a0 b0 m). cbn. auto. Qed.

Lemma sim_hist a0 b0 n :
  length (fst (sim a0 b0 n)) = S n /\ length (snd (sim a0 b0 n)) = S n /\
  (forall i, i <= n -> nth (n - i) (fst (sim a0 b0 n)) a0 = sim_a a0 b0 i) /\
  (forall i, i <= n -> nth (n - i) (snd (sim a0 b0 n)) b0 = sim_b a0 b0 i).
Proof.
  induction n as [|n (L1 & L2 & IH1 & IH2)].
  - cbn. repeat split; intros i Hi; replace i with 0 by lia; reflexivity.
  - destruct (sim_S a0 b0 n) as [-> ->]. cbn [length].
    split; [congruence|]. split; [congruence|].
    split; intros i Hi; (destruct (Nat.eq_dec i (S n)) as [->|Hne];
      [rewrite Nat.sub_diag; reflexivity|]);
    replace (S n - i) with (S (n - i)) by lia; cbn [nth]; [apply IH1 | apply IH2]; lia.
Qed.

(** Every start has an execution. *)
Lemma sim_trace a0 b0 : 1 <= lba -> pair_trace (sim_a a0 b0) (sim_b a0 b0).
Proof.
  intros Hl k. destruct (sim_hist a0 b0 k) as (L1 & L2 & H1 & H2).
  assert (EA : sim_a a0 b0 (S k) =
     fa (S k) (recv_hist outb lba junkb b0 (snd (sim a0 b0 k)) (S k)) (sim_a a0 b0 k)).
  { unfold sim_a. cbn [sim]. destruct (sim a0 b0 k) as [ha hb]. reflexivity. }
  assert (EB : sim_b a0 b0 (S k) =
     fb (S k) (recv_hist outa lab junka a0 (sim_a a0 b0 (S k) :: fst (sim a0 b0 k)) (S k)) (sim_b a0 b0 k)).
  { rewrite EA. unfold sim_a, sim_b. cbn [sim]. destruct (sim a0 b0 k) as [ha hb]. reflexivity. }
  split.
  - rewrite EA. f_equal. unfold recv_hist, received.
    destruct (Nat.ltb_spec (S k) lba); [reflexivity|]. f_equal.
    rewrite L2. rewrite <- (H2 (S k - lba)) by lia. f_equal. lia.
  - rewrite EB. f_equal. unfold recv_hist, received.
    destruct (Nat.ltb_spec (S k) lab); [reflexivity|]. f_equal. cbn [length].
    rewrite L1. replace (S (S k) - 1 - (S k - lab)) with (Nat.min lab (S k)) by lia.
    destruct (Nat.min lab (S k)) as [|j] eqn:Hj.
    + replace (S k - lab) with (S k) by lia. reflexivity.
    + cbn [nth]. rewrite <- (H1 (S k - lab)) by lia. f_equal. lia.
Qed.
End PAIR.
