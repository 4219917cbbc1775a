(** Plugs and sockets in use, and what should be true of them. *)
From Coq Require Import List Arith Bool ZArith Lia.
From Verif Require Import Jumper.
Import ListNotations.
Local Open Scope Z_scope.

(** Socket [i] holds plug [p]. *)
Definition holds (s : sys) (i p : nat) : Prop := k_plug (y_sock s i) = Some p.
Definition free (s : sys) (i : nat) : Prop := k_plug (y_sock s i) = None.
(** Entry [a] of the plug's list is socket [i]. *)
Definition entry (s : sys) (p : nat) (a : Z) (i : nat) : Prop :=
  0 <= a /\ nth_error (g_list (y_plug s p)) (Z.to_nat a) = Some i.

(** Before the plugs are initialized: nothing is connected, the derived classes
    start without a connection, the requests may be anything. *)
Definition unwired (s : sys) : Prop :=
  (forall i, k_plug (y_sock s i) = None /\ k_has (y_sock s i) = false) /\
  (forall p, NoDup (g_list (y_plug s p)) /\ g_active (y_plug s p) = none (y_plug s p)).

(** The user may write the requests at any time. *)
Definition requests (g g' : plug) : Prop :=
  g_list g' = g_list g /\ g_node g' = g_node g /\ g_active g' = g_active g /\ g_last g' = g_last g.
(** Sockets may be moved to other nodes. *)
Definition moves (k k' : socket) : Prop := k_plug k' = k_plug k /\ k_has k' = k_has k.

Inductive reach : sys -> Prop :=
| re_start s : unwired s -> reach s
| re_init s p node sock s' : reach s -> initialize s p node sock = Some s' -> reach s'
| re_request s p g : reach s -> requests (y_plug s p) g -> reach (put_plug s p g)
| re_move s i k : reach s -> moves (y_sock s i) k -> reach (put_sock s i k)
| re_update s p node : reach s -> reach (fst (update s p node))
| re_restart s p : reach s -> reach (restart_requests s p).

(** Where the jumper end belongs: on the socket's node, else on the ambient node
    of the socket last left, else on its default node. *)
Definition belongs (s : sys) (p : nat) (default n : Z) : Prop :=
  (forall i, entry s p (g_active (y_plug s p)) i -> n = k_n0 (y_sock s i)) /\
  (g_active (y_plug s p) = none (y_plug s p) ->
    (forall i, entry s p (g_last (y_plug s p)) i -> n = k_n1 (y_sock s i)) /\
    (g_last (y_plug s p) = none (y_plug s p) -> n = default)).

(** The requests name sockets or none. *)
Definition sane (g : plug) : Prop := 0 <= g_conn g <= none g /\ 0 <= g_disc g <= none g.
(** No direct request is in force. *)
Definition no_direct (g : plug) : Prop :=
  g_disable g = true \/ ~ (0 <= g_direct g <= none g) \/ g_direct g = g_active g.
