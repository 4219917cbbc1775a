(** * Model of the health and status message queue

    Source: ms-utils/simulation/hs/TsHsMsgQueue.cpp and TsHsMsgQueue.hh.

    This file models the calls as one thread makes them, one after the other.
    [MsgQueueConc.v] models the same code as a set of threads.

    Simplifications:
    - Pointers to nodes are indices into the queue's own allocation, and the
      null pointer is [None].  Following a null pointer, or an index outside
      the allocation, is the outcome [UB].
    - [int] counters and sizes are integers with the outcome [UB] when an
      addition leaves the range of a 32-bit [int].
    - Allocation always succeeds, and freeing is not modelled.
    - The mutex is a flag.  Locking a mutex that the only thread has left
      locked is the outcome [Hang].  Copying a mutex (clone) copies the flag.
    - The mission elapsed time is a structure that the queue only copies.  It
      is an opaque list of integers here. *)
From Coq Require Import List ZArith Bool Lia String.
Import ListNotations.
Local Open Scope Z_scope.

Inductive outcome (A : Type) : Type :=
| Ret (a : A)
| UB
| Hang.
Arguments Ret {A} a.
Arguments UB {A}.
Arguments Hang {A}.

Definition bindO {A B} (x : outcome A) (f : A -> outcome B) : outcome B :=
  match x with Ret a => f a | UB => UB | Hang => Hang end.
Notation "'let!' x := a 'in' b" := (bindO a (fun x => b))
  (at level 200, x pattern, a at level 100, b at level 200).

Definition int_max : Z := 2147483647.
Definition int_min : Z := - (2147483648).

(** [x + 1] on [int]. *)
Definition int_inc (x : Z) : outcome Z :=
  if int_max <=? x then UB else Ret (x + 1).

(** TsHsMsgQueue.hh:54-61, the fields of a node that hold a message. *)
Record Msg := mkMsg {
  m_file : string; m_line : Z; m_func : string; m_type : Z;
  m_subsys : string; m_text : string; m_met : list Z; m_time : Z }.

(** TsHsMsgQueue.cpp:42-53, a fresh node. *)
Definition msg0 : Msg := mkMsg "" 0 "" 0 "UNKNOWN" "" [] 0.

(** TsHsMsgQueue.hh:49-66, a node: a message and the pointer [mNext]. *)
Record Node := mkNode { n_msg : Msg; n_next : option nat }.

Definition node0 : Node := mkNode msg0 None.

(** TsHsMsgQueue.hh:146-156. *)
Record Queue := mkQueue {
  q_mem   : list Node;    (* mAllocation *)
  q_asize : Z;            (* mAllocatedSize *)
  q_tail  : option nat;   (* mTail *)
  q_head  : option nat;   (* mHead *)
  q_lock  : bool;         (* mMutex *)
  q_block : bool;         (* mBlocking *)
  q_fails : Z;            (* mTryLockFailures *)
  q_over  : Z             (* mOverflowCount *) }.

Definition set_lock (q : Queue) (b : bool) : Queue :=
  mkQueue (q_mem q) (q_asize q) (q_tail q) (q_head q) b (q_block q) (q_fails q) (q_over q).

Definition ptr_eqb (a b : option nat) : bool :=
  match a, b with
  | None, None => true
  | Some i, Some j => Nat.eqb i j
  | _, _ => false
  end.

(** The node a pointer points to. *)
Definition deref (mem : list Node) (p : option nat) : outcome Node :=
  match p with
  | None => UB
  | Some i => match nth_error mem i with Some n => Ret n | None => UB end
  end.

Fixpoint set_nth {A} (l : list A) (i : nat) (x : A) : list A :=
  match l, i with
  | [], _ => []
  | _ :: r, O => x :: r
  | a :: r, S j => a :: set_nth r j x
  end.

Definition store (mem : list Node) (p : option nat) (n : Node) : list Node :=
  match p with None => mem | Some i => set_nth mem i n end.

(** TsHsMsgQueue.hh:115. *)
Definition is_empty (q : Queue) : bool := ptr_eqb (q_head q) (q_tail q).

(** TsHsMsgQueue.hh:118. *)
Definition is_full (q : Queue) : outcome bool :=
  let! n := deref (q_mem q) (q_tail q) in
  Ret (ptr_eqb (n_next n) (q_head q)).

(** TsHsMsgQueue.cpp:101-108. *)
Definition get_capacity (q : Queue) : Z :=
  if q_asize q =? 0 then 0 else q_asize q - 1.

(** TsHsMsgQueue.cpp:113-122. *)
Definition get_size (q : Queue) : Z :=
  match q_head q, q_tail q with
  | Some h, Some t =>
      if q_asize q =? 0 then 0
      else if Nat.leb h t then Z.of_nat t - Z.of_nat h
      else q_asize q - (Z.of_nat h - Z.of_nat t)
  | _, _ => 0
  end.

(** pthread_mutex_lock by the only thread. *)
Definition lock (q : Queue) : outcome Queue :=
  if q_lock q then Hang else Ret (set_lock q true).

(** The assignments of TsHsMsgQueue.cpp:176-183. *)
Definition write_fields (n : Node) (m : Msg) : Node :=
  mkNode (mkMsg (m_file m) (m_line m) (m_func m) (m_type m) (m_subsys m)
                (m_text m) (m_met m) (m_time m)) (n_next n).

(** The assignments of TsHsMsgQueue.cpp:232-239. *)
Definition read_fields (n : Node) : Msg :=
  let m := n_msg n in
  mkMsg (m_file m) (m_line m) (m_func m) (m_type m) (m_subsys m)
        (m_text m) (m_met m) (m_time m).

(** TsHsMsgQueue.cpp:175-196, what insertMsg does with the mutex held. *)
Definition insert_locked (q : Queue) (m : Msg) : outcome Queue :=
  let! n := deref (q_mem q) (q_tail q) in
  let mem := store (q_mem q) (q_tail q) (write_fields n m) in
  let q := mkQueue mem (q_asize q) (q_tail q) (q_head q) (q_lock q) (q_block q)
                   (q_fails q) (q_over q) in
  let! full := is_full q in
  let! q :=
    (if full then
       let! hd := deref (q_mem q) (q_head q) in
       let! ov := int_inc (q_over q) in
       Ret (mkQueue (q_mem q) (q_asize q) (q_tail q) (n_next hd) (q_lock q) (q_block q)
                    (q_fails q) ov)
     else Ret q) in
  let! n := deref (q_mem q) (q_tail q) in
  Ret (mkQueue (q_mem q) (q_asize q) (n_next n) (q_head q) (q_lock q) (q_block q)
               (q_fails q) (q_over q)).

(** TsHsMsgQueue.cpp:152-199. *)
Definition insert_msg (q : Queue) (m : Msg) : outcome Queue :=
  if q_block q then
    let! q := lock q in
    let! q := insert_locked q m in
    Ret (set_lock q false)
  else if q_lock q then
    let! f := int_inc (q_fails q) in
    Ret (mkQueue (q_mem q) (q_asize q) (q_tail q) (q_head q) (q_lock q) (q_block q) f (q_over q))
  else
    let! q := insert_locked (set_lock q true) m in
    Ret (set_lock q false).

(** TsHsMsgQueue.cpp:223-247.  [None] is the return value false. *)
Definition remove_msg (q : Queue) : outcome (Queue * option Msg) :=
  if is_empty q then Ret (q, None)
  else
    let! q := lock q in
    let! hd := deref (q_mem q) (q_head q) in
    let m := read_fields hd in
    let q := mkQueue (q_mem q) (q_asize q) (q_tail q) (n_next hd) (q_lock q) (q_block q)
                     (q_fails q) (q_over q) in
    Ret (set_lock q false, Some m).

(** TsHsMsgQueue.cpp:272-278, the new nodes in a ring. *)
Definition fresh_mem (n : nat) : list Node :=
  map (fun i => mkNode msg0 (Some (if Nat.eqb (S i) n then 0%nat else S i))) (seq 0 n).

(** max(size+1, 2), TsHsMsgQueue.cpp:258, 298. *)
Definition alloc_size (size : Z) : outcome Z :=
  let! s := int_inc size in Ret (Z.max s 2).

(** TsHsMsgQueue.cpp:255-280. *)
Definition alloc_queue (q : Queue) (size : Z) : outcome Queue :=
  let! n := alloc_size size in
  if n =? q_asize q then Ret q
  else Ret (mkQueue (fresh_mem (Z.to_nat n)) n (Some 0%nat) (Some 0%nat) (q_lock q) (q_block q)
                    (q_fails q) (q_over q)).

(** TsHsMsgQueue.cpp:331-341.  Every field is copied, so the clone is the
    original itself. *)
Definition clone_queue (original : Queue) : Queue :=
  mkQueue (q_mem original) (q_asize original) (q_tail original) (q_head original)
          (q_lock original) (q_block original) (q_fails original) (q_over original).

(** TsHsMsgQueue.cpp:320-324, the copying loop.  [Hang] when it has not ended
    after [fuel] rounds. *)
Fixpoint drain (fuel : nat) (temp q : Queue) : outcome Queue :=
  match fuel with
  | O => Hang
  | S k =>
      let! (temp, r) := remove_msg temp in
      match r with
      | None => Ret q
      | Some m => let! q := insert_msg q m in drain k temp q
      end
  end.

(** TsHsMsgQueue.cpp:288-325. *)
Definition realloc_queue (q : Queue) (size : Z) : outcome Queue :=
  if q_asize q =? 0 then alloc_queue q size
  else
    let! n := alloc_size size in
    if n =? q_asize q then Ret q
    else
      let temp := clone_queue q in
      let q := mkQueue [] 0 None None (q_lock q) (q_block q) (q_fails q) (q_over q) in
      let! q := alloc_queue q size in
      drain (S (List.length (q_mem temp))) temp q.

(** TsHsMsgQueue.cpp:131-135. *)
Definition initialize (q : Queue) (size : Z) (blocking : bool) : outcome Queue :=
  realloc_queue (mkQueue (q_mem q) (q_asize q) (q_tail q) (q_head q) (q_lock q) blocking
                         (q_fails q) (q_over q)) size.

(** TsHsMsgQueue.cpp:58-68. *)
Definition queue_default : Queue := mkQueue [] 0 None None false false 0 0.

(** TsHsMsgQueue.cpp:76-88. *)
Definition queue_make (size : Z) (blocking : bool) : outcome Queue :=
  alloc_queue (mkQueue [] 0 None None false blocking 0 0) size.

(** TsHsMsgQueue.hh:127. *)
Definition set_blocking (q : Queue) (b : bool) : Queue :=
  mkQueue (q_mem q) (q_asize q) (q_tail q) (q_head q) (q_lock q) b (q_fails q) (q_over q).

(** The calls a user can make, and what they see after each one. *)
Inductive Op :=
| OInsert (m : Msg)
| ORemove
| OInit (size : Z) (blocking : bool)
| OBlocking (b : bool).

Record Seen := mkSeen {
  s_removed  : option Msg;   (* what removeMsg handed out, if it returned true *)
  s_size     : Z;            (* getSize *)
  s_capacity : Z;            (* getCapacity *)
  s_empty    : bool;         (* isEmpty *)
  s_fails    : Z;            (* getLockFailures *)
  s_over     : Z;            (* getOverflows *)
  s_blocking : bool          (* getBlocking *) }.

Definition seen (q : Queue) (r : option Msg) : Seen :=
  mkSeen r (get_size q) (get_capacity q) (is_empty q) (q_fails q) (q_over q) (q_block q).

Definition do_op (q : Queue) (o : Op) : outcome (Queue * option Msg) :=
  match o with
  | OInsert m => let! q := insert_msg q m in Ret (q, None)
  | ORemove => remove_msg q
  | OInit n b => let! q := initialize q n b in Ret (q, None)
  | OBlocking b => Ret (set_blocking q b, None)
  end.

Fixpoint run_ops (q : Queue) (ops : list Op) : outcome (Queue * list Seen) :=
  match ops with
  | [] => Ret (q, [])
  | o :: r =>
      let! (q, x) := do_op q o in
      let s := seen q x in
      let! (q, ss) := run_ops q r in
      Ret (q, s :: ss)
  end.
