(** GunnsMinorStepLog.
    Source: /repo/core/GunnsMinorStepLog.cpp and .hh.
    The vectors hold values of an arbitrary type [A].  Indexing outside the ring buffer
    and copying from an array that is too short are [UB].  The network links are the
    arrays they return.  Not modelled: the path, the column header, the formatting of
    numbers, and failure to open the file.  The thread that writes the file is modelled
    as calls between the other calls. *)
From Coq Require Import List ZArith Bool Lia.
From Verif Require Import MsgQueue.
Import ListNotations.
Local Open Scope Z_scope.

(** Conversion to unsigned int and from unsigned int to int. *)
Definition u32 (z : Z) : Z := z mod 2 ^ 32.
Definition s32 (z : Z) : Z := (z + 2 ^ 31) mod 2 ^ 32 - 2 ^ 31.

(** GunnsBasicLink::SolutionResult; GunnsMinorStepLog.hh:70-78. *)
Inductive LinkResult := LConfirm | LReject | LDelay.
Inductive StepResult := Success | Confirm | Reject | Delay | DecompLimit | MinorLimit | MathFail.
(** GunnsMinorStepLog.hh:107-112; [BadCmd] is any other value of the enumeration. *)
Inductive Command := CPause | CAuto | CSnapMode | CSnap | BadCmd.
(** GunnsMinorStepLog.hh:141-146. *)
Inductive Mode := Paused | RecAuto | RecSnap | Writing.

Section LOG.
Context {A : Type}.

(** GunnsMinorStepLog.hh:45-47, 79-85. *)
Record LinkData := mkLD { ld_result : LinkResult; ld_admit : list A; ld_source : list A }.
Record Frame := mkFrame {
  f_major : Z; f_minor : Z; f_decomp : Z; f_result : StepResult;
  f_pot : list A; f_conv : list A; f_links : list LinkData }.

(** GunnsMinorStepLog.hh:175-187.  [g_file]: mFilename, [None] when empty; the number is
    the major step in the name. *)
Record Log := mkLog {
  g_cmd : Command; g_steps : Z; g_state : Mode; g_rec : bool;
  g_buf : list Frame; g_size : Z; g_head : Z; g_valid : Z; g_file : option Z }.

Definition get (l : list Frame) (i : Z) : outcome Frame :=
  if i <? 0 then UB else match nth_error l (Z.to_nat i) with Some f => Ret f | None => UB end.
Fixpoint upd {B} (l : list B) (i : nat) (x : B) : list B :=
  match l, i with
  | [], _ => []
  | _ :: r, O => x :: r
  | y :: r, S i => y :: upd r i x
  end.

Definition with_cmd (g : Log) c := mkLog c (g_steps g) (g_state g) (g_rec g) (g_buf g) (g_size g) (g_head g) (g_valid g) (g_file g).
Definition with_state (g : Log) s := mkLog (g_cmd g) (g_steps g) s (g_rec g) (g_buf g) (g_size g) (g_head g) (g_valid g) (g_file g).
Definition with_buf (g : Log) b := mkLog (g_cmd g) (g_steps g) (g_state g) (g_rec g) b (g_size g) (g_head g) (g_valid g) (g_file g).
(** The user sets mInputData.mModeCommand or mInputData.mLogSteps. *)
Definition set_cmd (c : Command) (g : Log) : Log := with_cmd g c.
Definition set_steps (n : Z) (g : Log) : Log :=
  mkLog (g_cmd g) n (g_state g) (g_rec g) (g_buf g) (g_size g) (g_head g) (g_valid g) (g_file g).

(** head, GunnsMinorStepLog.hh:261-264, read and written. *)
Definition head (g : Log) : outcome Frame := get (g_buf g) (g_head g).
Definition at_head (g : Log) (h : Frame -> outcome Frame) : outcome Log :=
  let! f := head g in
  let! f := h f in
  Ret (with_buf g (upd (g_buf g) (Z.to_nat (g_head g)) f)).

(** step, GunnsMinorStepLog.hh:220-231. *)
Definition step (g : Log) : Log :=
  if g_rec g then
    let h := u32 (g_head g + 1) in
    let h := if g_size g <=? h then 0 else h in
    let v := if g_valid g <? g_size g then u32 (g_valid g + 1) else g_valid g in
    mkLog (g_cmd g) (g_steps g) (g_state g) (g_rec g) (g_buf g) (g_size g) h v (g_file g)
  else g.
(** startLogging, stopLogging, GunnsMinorStepLog.hh:240-254. *)
Definition start_logging (g : Log) : Log :=
  mkLog (g_cmd g) (g_steps g) (g_state g) true (g_buf g) (g_size g) (u32 (g_size g - 1)) 0 (g_file g).
Definition stop_logging (g : Log) : Log :=
  mkLog (g_cmd g) (g_steps g) (g_state g) false (g_buf g) (g_size g) (g_head g) (g_valid g) (g_file g).

(** updateFreeze, GunnsMinorStepLog.cpp:471-484. *)
Definition update_freeze (g : Log) : Log :=
  match g_buf g with
  | f :: _ =>
      if negb (g_size g =? g_steps g) && (0 <? g_steps g) then
        start_logging (mkLog (g_cmd g) (g_steps g) (g_state g) (g_rec g)
                         (repeat f (Z.to_nat (g_steps g))) (g_steps g) (g_head g) (g_valid g) (g_file g))
      else g
  | [] => g
  end.

(** The constructors, GunnsMinorStepLog.cpp:25-37, 98-116: a frame of zeros for a
    network of [n] nodes and links with the given numbers of ports. *)
Definition frame0 (zero : A) (n : nat) (ports : list nat) : Frame :=
  mkFrame 0 0 0 Success (repeat zero n) (repeat zero n)
    (map (fun p => mkLD LConfirm (repeat zero (p * p)) (repeat zero p)) ports).

(** initialize and validate, GunnsMinorStepLog.cpp:244-264, 497-537; [None] is an
    exception.  The name and links pointer are taken to be given. *)
Definition log_init (zero : A) (c : Command) (steps : Z) (n : nat) (ports : list nat) : option Log :=
  if (n =? 0)%nat || (List.length ports =? 0)%nat then None
  else
    match c with
    | CSnap => None
    | _ =>
        if (steps =? 0) && match c with CAuto | CSnapMode => true | _ => false end then None
        else Some (update_freeze
               (mkLog c steps Paused false [frame0 zero n ports] 0 (u32 (0 - 1)) 0 None))
    end.

(** initiateDump, GunnsMinorStepLog.cpp:618-625. *)
Definition initiate_dump (g : Log) : outcome Log :=
  let g := with_state (stop_logging g) Writing in
  let! f := head g in
  Ret (mkLog (g_cmd g) (g_steps g) (g_state g) (g_rec g) (g_buf g) (g_size g) (g_head g) (g_valid g)
         (Some (f_major f))).

(** beginMajorStep, GunnsMinorStepLog.cpp:273-314. *)
Definition begin_major (g : Log) : outcome Log :=
  let g := if g_size g =? 0 then with_state (with_cmd g CPause) Paused else g in
  match g_state g with
  | Writing => Ret g
  | _ =>
      match g_cmd g with
      | CPause => Ret (with_state (stop_logging g) Paused)
      | CAuto =>
          let g := match g_state g with Paused => start_logging g | _ => g end in
          Ret (with_state g RecAuto)
      | CSnapMode =>
          let g := match g_state g with Paused => start_logging g | _ => g end in
          Ret (with_state g RecSnap)
      | CSnap =>
          initiate_dump (with_cmd g match g_state g with
                                    | Paused => CPause
                                    | RecAuto => CAuto
                                    | _ => CSnapMode
                                    end)
      | BadCmd => Ret g
      end
  end.

(** recordAllLinksResult, GunnsMinorStepLog.cpp:402-407, with recordLinkResult,
    389-394: the loop reads the head frame even when it does not record. *)
Definition all_links (r : LinkResult) (g : Log) : outcome Log :=
  at_head g (fun f => Ret (if g_rec g then
    mkFrame (f_major f) (f_minor f) (f_decomp f) (f_result f) (f_pot f) (f_conv f)
      (map (fun d => mkLD r (ld_admit d) (ld_source d)) (f_links f)) else f)).

(** beginMinorStep, GunnsMinorStepLog.cpp:327-335. *)
Definition begin_minor (major minor : Z) (g : Log) : outcome Log :=
  if g_rec g then
    let! g := at_head (step g) (fun f => Ret
      (mkFrame major minor (f_decomp f) (f_result f) (f_pot f) (f_conv f) (f_links f))) in
    all_links LConfirm g
  else Ret g.

(** vector::assign(p, p + n): [UB] when the array is shorter than n. *)
Definition assign (n : nat) (src : list A) : outcome (list A) :=
  if (n <=? List.length src)%nat then Ret (firstn n src) else UB.

(** recordPotential, recordNodesConvergence, GunnsMinorStepLog.cpp:343-361. *)
Definition record_potential (v : list A) (g : Log) : outcome Log :=
  if g_rec g then at_head g (fun f =>
    let! p := assign (List.length (f_pot f)) v in
    Ret (mkFrame (f_major f) (f_minor f) (f_decomp f) (f_result f) p (f_conv f) (f_links f)))
  else Ret g.
Definition record_convergence (v : list A) (g : Log) : outcome Log :=
  if g_rec g then at_head g (fun f =>
    let! p := assign (List.length (f_conv f)) v in
    Ret (mkFrame (f_major f) (f_minor f) (f_decomp f) (f_result f) (f_pot f) p (f_links f)))
  else Ret g.

(** recordLinkContributions, GunnsMinorStepLog.cpp:367-380; the links' admittance
    matrices and source vectors are the argument. *)
Fixpoint contribute (ds : list LinkData) (ls : list (list A * list A)) : outcome (list LinkData) :=
  match ds, ls with
  | [], _ => Ret []
  | d :: ds, (m, v) :: ls =>
      let! v := assign (List.length (ld_source d)) v in
      let! m := assign (List.length (ld_admit d)) m in
      let! r := contribute ds ls in
      Ret (mkLD (ld_result d) m v :: r)
  | _ :: _, [] => UB
  end.
Definition record_contributions (ls : list (list A * list A)) (g : Log) : outcome Log :=
  if g_rec g then at_head g (fun f =>
    let! ds := contribute (f_links f) ls in
    Ret (mkFrame (f_major f) (f_minor f) (f_decomp f) (f_result f) (f_pot f) (f_conv f) ds))
  else Ret g.

(** recordLinkResult, GunnsMinorStepLog.cpp:389-394. *)
Definition record_link (k : nat) (r : LinkResult) (g : Log) : outcome Log :=
  if g_rec g then at_head g (fun f =>
    match nth_error (f_links f) k with
    | Some d => Ret (mkFrame (f_major f) (f_minor f) (f_decomp f) (f_result f) (f_pot f) (f_conv f)
                       (upd (f_links f) k (mkLD r (ld_admit d) (ld_source d))))
    | None => UB
    end)
  else Ret g.

(** recordStepResult, GunnsMinorStepLog.cpp:418-424. *)
Definition record_step (d : Z) (r : StepResult) (g : Log) : outcome Log :=
  if g_rec g then at_head g (fun f => Ret
    (mkFrame (f_major f) (f_minor f) d r (f_pot f) (f_conv f) (f_links f)))
  else Ret g.

Definition success (r : StepResult) : bool := match r with Success => true | _ => false end.

(** endMajorStep, GunnsMinorStepLog.cpp:432-437. *)
Definition end_major (g : Log) : outcome Log :=
  match g_state g with
  | RecAuto => let! f := head g in if success (f_result f) then Ret g else initiate_dump g
  | _ => Ret g
  end.

(** headOffset, GunnsMinorStepLog.hh:274-284. *)
Definition head_offset (g : Log) (offset : Z) : outcome Frame :=
  let i := s32 (u32 (g_head g + offset)) in
  let i := if i <? 0 then s32 (u32 (i + g_size g))
           else if s32 (g_size g) <=? i then s32 (u32 (i - g_size g)) else i in
  get (g_buf g) i.

(** What goes to the file: rows, or the failure text. *)
Inductive Output := Rows (l : list Frame) | Failure.

(** renderOutput, GunnsMinorStepLog.cpp:577-611; row j is the frame itself. *)
Fixpoint rows (g : Log) (j : Z) (n : nat) : outcome (list Frame) :=
  match n with
  | O => Ret []
  | S n => let! f := head_offset g j in let! r := rows g (j + 1) n in Ret (f :: r)
  end.
Definition render (g : Log) : outcome Output :=
  if g_rec g then Ret Failure
  else
    let j := s32 (u32 (1 - g_valid g)) in
    let! r := rows g j (Z.to_nat (1 - j)) in Ret (Rows r).

(** updateAsync, GunnsMinorStepLog.cpp:444-460: the new state and the file written. *)
Definition update_async (g : Log) : outcome (Log * option (Z * Output)) :=
  match g_file g with
  | None => Ret (g, None)
  | Some name =>
      let! o := render g in
      Ret (mkLog (g_cmd g) (g_steps g) Paused (g_rec g) (g_buf g) (g_size g) (g_head g) (g_valid g) None,
           Some (name, o))
  end.

(** The recording calls the solver makes inside a major step. *)
Inductive Rec :=
| RBegin (major minor : Z)
| RPot (v : list A)
| RConv (v : list A)
| RContrib (ls : list (list A * list A))
| RLink (k : nat) (r : LinkResult)
| RStep (d : Z) (r : StepResult).
Definition rec_call (c : Rec) (g : Log) : outcome Log :=
  match c with
  | RBegin a b => begin_minor a b g
  | RPot v => record_potential v g
  | RConv v => record_convergence v g
  | RContrib ls => record_contributions ls g
  | RLink k r => record_link k r g
  | RStep d r => record_step d r g
  end.
Fixpoint rec_run (cs : list Rec) (g : Log) : outcome Log :=
  match cs with [] => Ret g | c :: r => let! g := rec_call c g in rec_run r g end.
End LOG.
Arguments LinkData : clear implicits.
Arguments Frame : clear implicits.
Arguments Log : clear implicits.
Arguments Output : clear implicits.
Arguments Rec : clear implicits.
