(** * The message queue used by several threads

    Source: ms-utils/simulation/hs/TsHsMsgQueue.cpp:152-199 (insertMsg) and
    223-247 (removeMsg).

    Each thread runs its calls in small steps, and the steps of different
    threads interleave in any order.  A step reads or writes at most one shared
    variable, so the eight fields of a message are copied in eight steps and
    isEmpty (TsHsMsgQueue.hh:115) reads its two pointers in two steps, in either
    order.

    Simplifications:
    - Memory is sequentially consistent.  The unlocked reads in isEmpty are a
      data race, for which the language gives no guarantee at all.
    - The counters do not overflow here ([MsgQueue.v] models that).
    - No thread resizes the queue (initialize is not locked).
    - mBlocking may change at any time, so each insertion picks its value when
      it reads it. *)
From Coq Require Import List ZArith Bool Lia Arith.
From Verif Require Import MsgQueue.
Import ListNotations.

(** Where a thread is. *)
Inductive pc :=
| Idle
(* insertMsg *)
| WAsk (m : Msg)                 (* 162: about to lock *)
| WFailRead (m : Msg)            (* 170: about to read mTryLockFailures *)
| WFailWrite (m : Msg) (v : Z)   (* 170: about to write v + 1 to it *)
| WFill (m : Msg) (k : nat)      (* 176-183: about to write field k *)
| WTest (m : Msg)                (* 186: about to test isFull *)
| WHead (m : Msg)                (* 189: about to move the head *)
| WCount (m : Msg)               (* 190: about to count the overflow *)
| WTail (m : Msg)                (* 196: about to move the tail *)
| WUnlock (m : Msg)              (* 198: about to unlock *)
(* removeMsg *)
| RAsk                           (* 226: about to read the first pointer *)
| RGotHead (h : option nat)      (* 226: has read mHead *)
| RGotTail (t : option nat)      (* 226: has read mTail *)
| RLock                          (* 229: about to lock *)
| RCopy (k : nat) (d : Msg)      (* 232-239: about to copy field k *)
| RAdvance (d : Msg)             (* 242: about to move the head *)
| RUnlock (d : Msg).             (* 244: about to unlock *)

(** What has happened, for stating properties.  The program does not read it. *)
Inductive event :=
| EInserted (t : nat) (m : Msg)   (* insertMsg put m in *)
| EDropped (m : Msg)              (* an overflow dropped the oldest message *)
| ESkipped (t : nat) (m : Msg)    (* insertMsg gave up because of the mutex *)
| EHanded (t : nat) (m : Msg)     (* removeMsg returns true with m *)
| EEmpty (t : nat).               (* removeMsg returns false *)

Record State := mkState {
  c_mem   : list Node;
  c_tail  : option nat;
  c_head  : option nat;
  c_owner : option nat;     (* the thread that holds mMutex *)
  c_fails : Z;
  c_over  : Z;
  c_pc    : nat -> pc;
  c_log   : list event      (* oldest first *) }.

(** The scheduler picks a thread and what it does next.  The last three labels
    matter only where the program leaves a choice. *)
Inductive label :=
| LInsert (t : nat) (m : Msg)     (* thread t calls insertMsg *)
| LRemove (t : nat)               (* thread t calls removeMsg *)
| LStep (t : nat)                 (* thread t takes its next step *)
| LBlocking (t : nat)             (* ... having read mBlocking as true *)
| LTry (t : nat)                  (* ... having read mBlocking as false *)
| LTailFirst (t : nat).           (* ... reading mTail before mHead *)

Definition set_pc (f : nat -> pc) (t : nat) (p : pc) : nat -> pc :=
  fun u => if Nat.eqb u t then p else f u.

(** Copy field [k] of [src] into [dst]. *)
Definition copy_field (k : nat) (src dst : Msg) : Msg :=
  match k with
  | 0 => mkMsg (m_file src) (m_line dst) (m_func dst) (m_type dst) (m_subsys dst) (m_text dst) (m_met dst) (m_time dst)
  | 1 => mkMsg (m_file dst) (m_line src) (m_func dst) (m_type dst) (m_subsys dst) (m_text dst) (m_met dst) (m_time dst)
  | 2 => mkMsg (m_file dst) (m_line dst) (m_func src) (m_type dst) (m_subsys dst) (m_text dst) (m_met dst) (m_time dst)
  | 3 => mkMsg (m_file dst) (m_line dst) (m_func dst) (m_type src) (m_subsys dst) (m_text dst) (m_met dst) (m_time dst)
  | 4 => mkMsg (m_file dst) (m_line dst) (m_func dst) (m_type dst) (m_subsys src) (m_text dst) (m_met dst) (m_time dst)
  | 5 => mkMsg (m_file dst) (m_line dst) (m_func dst) (m_type dst) (m_subsys dst) (m_text src) (m_met dst) (m_time dst)
  | 6 => mkMsg (m_file dst) (m_line dst) (m_func dst) (m_type dst) (m_subsys dst) (m_text dst) (m_met src) (m_time dst)
  | 7 => mkMsg (m_file dst) (m_line dst) (m_func dst) (m_type dst) (m_subsys dst) (m_text dst) (m_met dst) (m_time src)
  | _ => dst
  end.

Definition goto (s : State) (t : nat) (p : pc) : State :=
  mkState (c_mem s) (c_tail s) (c_head s) (c_owner s) (c_fails s) (c_over s)
          (set_pc (c_pc s) t p) (c_log s).

Definition emit (s : State) (e : event) : State :=
  mkState (c_mem s) (c_tail s) (c_head s) (c_owner s) (c_fails s) (c_over s) (c_pc s) (c_log s ++ [e]).

Definition with_owner (s : State) (o : option nat) : State :=
  mkState (c_mem s) (c_tail s) (c_head s) o (c_fails s) (c_over s) (c_pc s) (c_log s).

(** One step.  [Hang] means that the thread cannot take this step now, because
    it waits for the mutex or because the label does not fit. *)
Definition step (l : label) (s : State) : outcome State :=
  match l with
  | LInsert t m =>
      match c_pc s t with Idle => Ret (goto s t (WAsk m)) | _ => Hang end
  | LRemove t =>
      match c_pc s t with Idle => Ret (goto s t RAsk) | _ => Hang end
  | LBlocking t =>
      match c_pc s t with
      | WAsk m =>
          match c_owner s with
          | None => Ret (goto (with_owner s (Some t)) t (WFill m 0))
          | Some _ => Hang
          end
      | _ => Hang
      end
  | LTry t =>
      match c_pc s t with
      | WAsk m =>
          match c_owner s with
          | None => Ret (goto (with_owner s (Some t)) t (WFill m 0))
          | Some _ => Ret (goto s t (WFailRead m))
          end
      | _ => Hang
      end
  | LTailFirst t =>
      match c_pc s t with RAsk => Ret (goto s t (RGotTail (c_tail s))) | _ => Hang end
  | LStep t =>
      match c_pc s t with
      | Idle => Hang
      | WAsk _ => Hang
      | WFailRead m => Ret (goto s t (WFailWrite m (c_fails s)))
      | WFailWrite m v =>
          Ret (emit (mkState (c_mem s) (c_tail s) (c_head s) (c_owner s) (v + 1)%Z (c_over s)
                             (set_pc (c_pc s) t Idle) (c_log s)) (ESkipped t m))
      | WFill m k =>
          let! n := deref (c_mem s) (c_tail s) in
          let mem := store (c_mem s) (c_tail s) (mkNode (copy_field k m (n_msg n)) (n_next n)) in
          let s' := mkState mem (c_tail s) (c_head s) (c_owner s) (c_fails s) (c_over s)
                            (c_pc s) (c_log s) in
          Ret (goto s' t (if Nat.ltb k 7 then WFill m (S k) else WTest m))
      | WTest m =>
          let! n := deref (c_mem s) (c_tail s) in
          Ret (goto s t (if ptr_eqb (n_next n) (c_head s) then WHead m else WTail m))
      | WHead m =>
          let! n := deref (c_mem s) (c_head s) in
          Ret (emit (goto (mkState (c_mem s) (c_tail s) (n_next n) (c_owner s) (c_fails s) (c_over s)
                                   (c_pc s) (c_log s)) t (WCount m)) (EDropped (n_msg n)))
      | WCount m =>
          Ret (goto (mkState (c_mem s) (c_tail s) (c_head s) (c_owner s) (c_fails s) (c_over s + 1)%Z
                             (c_pc s) (c_log s)) t (WTail m))
      | WTail m =>
          let! n := deref (c_mem s) (c_tail s) in
          Ret (emit (goto (mkState (c_mem s) (n_next n) (c_head s) (c_owner s) (c_fails s) (c_over s)
                                   (c_pc s) (c_log s)) t (WUnlock m)) (EInserted t m))
      | WUnlock _ => Ret (goto (with_owner s None) t Idle)
      | RAsk => Ret (goto s t (RGotHead (c_head s)))
      | RGotHead h =>
          if ptr_eqb h (c_tail s) then Ret (emit (goto s t Idle) (EEmpty t))
          else Ret (goto s t RLock)
      | RGotTail p =>
          if ptr_eqb (c_head s) p then Ret (emit (goto s t Idle) (EEmpty t))
          else Ret (goto s t RLock)
      | RLock =>
          match c_owner s with
          | None => Ret (goto (with_owner s (Some t)) t (RCopy 0 msg0))
          | Some _ => Hang
          end
      | RCopy k d =>
          let! n := deref (c_mem s) (c_head s) in
          let d := copy_field k (n_msg n) d in
          Ret (goto s t (if Nat.ltb k 7 then RCopy (S k) d else RAdvance d))
      | RAdvance d =>
          let! n := deref (c_mem s) (c_head s) in
          Ret (emit (goto (mkState (c_mem s) (c_tail s) (n_next n) (c_owner s) (c_fails s) (c_over s)
                                   (c_pc s) (c_log s)) t (RUnlock d)) (EHanded t d))
      | RUnlock _ => Ret (goto (with_owner s None) t Idle)
      end
  end.

(** An interleaving is a list of labels. *)
Fixpoint run (ls : list label) (s : State) : outcome State :=
  match ls with
  | [] => Ret s
  | l :: r => let! s := step l s in run r s
  end.

(** The state of a queue [q] with every thread idle. *)
Definition conc_of (q : Queue) : State :=
  mkState (q_mem q) (q_tail q) (q_head q) None (q_fails q) (q_over q) (fun _ => Idle) [].
