(** * What the threads see of a shared message queue *)
From Coq Require Import List Arith.
From Verif Require Import MsgQueue MsgQueueConc.
Import ListNotations.

(** The messages put in, handed out and dropped, in order. *)
Fixpoint put_in (l : list event) : list Msg :=
  match l with
  | [] => [] | EInserted _ m :: r => m :: put_in r | _ :: r => put_in r
  end.

Fixpoint handed_out (l : list event) : list Msg :=
  match l with
  | [] => [] | EHanded _ m :: r => m :: handed_out r | _ :: r => handed_out r
  end.

Fixpoint dropped (l : list event) : list Msg :=
  match l with
  | [] => [] | EDropped m :: r => m :: dropped r | _ :: r => dropped r
  end.

(** How many insertions gave up. *)
Fixpoint skipped (l : list event) : nat :=
  match l with
  | [] => 0 | ESkipped _ _ :: r => S (skipped r) | _ :: r => skipped r
  end.

(** [sublist a b]: [a] is [b] with some elements left out. *)
Inductive sublist {A} : list A -> list A -> Prop :=
| sl_nil : forall b, sublist [] b
| sl_keep : forall x a b, sublist a b -> sublist (x :: a) (x :: b)
| sl_skip : forall x a b, sublist a b -> sublist a (x :: b).

(** [merge_of l a b]: [l] is [a] and [b] shuffled together. *)
Inductive merge_of {A} : list A -> list A -> list A -> Prop :=
| mg_nil : merge_of [] [] []
| mg_left : forall x l a b, merge_of l a b -> merge_of (x :: l) (x :: a) b
| mg_right : forall x l a b, merge_of l a b -> merge_of (x :: l) a (x :: b).

(** Only thread [r] calls removeMsg. *)
Definition only_reader (r : nat) (l : label) : Prop :=
  match l with LRemove t => t = r | _ => True end.

(** Only thread [w] calls insertMsg. *)
Definition only_writer (w : nat) (l : label) : Prop :=
  match l with LInsert t _ => t = w | _ => True end.
