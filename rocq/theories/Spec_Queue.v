(** * What a bounded message queue should do

    The queue is a list of messages, oldest first, with a capacity and a count
    of the messages lost by overflow. *)
From Coq Require Import List ZArith Bool Lia.
From Verif Require Import MsgQueue.
Import ListNotations.
Local Open Scope Z_scope.

Record AQueue := mkA { a_cap : Z; a_items : list Msg; a_lost : Z; a_blocking : bool }.

(** Only the newest [n] items stay. *)
Definition newest (n : Z) (l : list Msg) : list Msg :=
  skipn (List.length l - Z.to_nat n) l.

Definition lost (n : Z) (l : list Msg) : Z := Z.max 0 (Z.of_nat (List.length l) - n).

Definition a_step (a : AQueue) (o : Op) : AQueue * option Msg :=
  match o with
  | OInsert m =>
      let l := a_items a ++ [m] in
      (mkA (a_cap a) (newest (a_cap a) l) (a_lost a + lost (a_cap a) l) (a_blocking a), None)
  | ORemove =>
      match a_items a with
      | [] => (a, None)
      | m :: r => (mkA (a_cap a) r (a_lost a) (a_blocking a), Some m)
      end
  | OInit size b =>
      let c := Z.max size 1 in
      (mkA c (newest c (a_items a)) (a_lost a + lost c (a_items a)) b, None)
  | OBlocking b => (mkA (a_cap a) (a_items a) (a_lost a) b, None)
  end.

Definition a_seen (a : AQueue) (r : option Msg) : Seen :=
  mkSeen r (Z.of_nat (List.length (a_items a))) (a_cap a)
         (match a_items a with [] => true | _ => false end) 0 (a_lost a) (a_blocking a).

Fixpoint a_run (a : AQueue) (ops : list Op) : AQueue * list Seen :=
  match ops with
  | [] => (a, [])
  | o :: r =>
      let (a, x) := a_step a o in
      let s := a_seen a x in
      let (a, ss) := a_run a r in (a, s :: ss)
  end.

(** The sizes a caller may ask for: the code computes size + 1 in an int. *)
Definition size_ok (size : Z) : Prop := size < int_max.

Definition op_ok (o : Op) : Prop :=
  match o with OInit size _ => size_ok size | _ => True end.

(** The messages put in, and the messages handed out, in order. *)
Fixpoint inserted (ops : list Op) : list Msg :=
  match ops with
  | [] => []
  | OInsert m :: r => m :: inserted r
  | _ :: r => inserted r
  end.

Fixpoint removed (ss : list Seen) : list Msg :=
  match ss with
  | [] => []
  | s :: r => match s_removed s with Some m => m :: removed r | None => removed r end
  end.

(** [split_of l h d]: the list [l] is a merge of the handed out messages [h]
    and [d] dropped ones, both in the order of [l]. *)
Inductive split_of : list Msg -> list Msg -> nat -> Prop :=
| so_nil : split_of [] [] 0
| so_handed : forall m l h d, split_of l h d -> split_of (m :: l) (m :: h) d
| so_dropped : forall m l h d, split_of l h d -> split_of (m :: l) h (S d).
