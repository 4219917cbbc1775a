(** Orders of calls. *)
From Coq Require Import List Arith Bool Lia.
From Verif Require Import Orchestrator.
Import ListNotations.

(** Each [b] in the list comes after some [a]. *)
Definition before (tr : list event) (a b : event) : Prop :=
  forall u v, tr = u ++ b :: v -> In a u.
(** The link's flows are transported, in a pass or early. *)
Definition is_transport (l : nat) (e : event) : Prop := e = Transport l \/ e = Early l.
Definition after_transport (tr : list event) (l : nat) (b : event) : Prop :=
  forall u v, tr = u ++ b :: v -> exists e, In e u /\ is_transport l e.
(** Exactly one call in the list satisfies [P]. *)
Definition once (P : event -> Prop) (tr : list event) : Prop :=
  exists u e v, tr = u ++ e :: v /\ P e /\ (forall x, In x (u ++ v) -> ~ P x).

(** The link takes from, or gives to, the node. *)
Definition takes_from (o : net) (l n : nat) : Prop := In (n, DSource) (o_ports o l) \/ In (n, DBoth) (o_ports o l).
Definition gives_to (o : net) (l n : nat) : Prop := In (n, DSink) (o_ports o l) \/ In (n, DBoth) (o_ports o l).
(** A node that can overflow: not the ground node. *)
Definition overflows (o : net) (n : nat) : Prop := n <> o_nodes o /\ o_over o n = true.

(** Ports are on nodes of the network. *)
Definition wired (o : net) : Prop := forall l n d, In (n, d) (o_ports o l) -> n <= o_nodes o.

(** Flow goes from lower to higher rank: there is no loop of flows at all. *)
Definition no_loop (o : net) : Prop :=
  exists rank : nat -> nat, forall l a b, l < o_links o -> takes_from o l a -> gives_to o l b -> rank a < rank b.
(** The links into an overflowing node are listed before those out of it. *)
Definition upstream_first (o : net) : Prop :=
  forall n a b, overflows o n -> a < o_links o -> b < o_links o -> gives_to o a n -> takes_from o b n -> a < b.
