(** What a log of the latest minor steps should hold.
    The specification keeps every recorded step, newest first; nothing is ever
    overwritten. *)
From Coq Require Import List ZArith Bool Lia.
From Verif Require Import MsgQueue StepLog.
Import ListNotations.
Local Open Scope Z_scope.

Section SPEC.
Context {A : Type}.

(** What was recorded about a step since it began; [None]: nothing yet. *)
Record Step := mkStep {
  s_major : Z; s_minor : Z;
  s_step : option (Z * StepResult);
  s_pot : option (list A);
  s_conv : option (list A);
  s_contrib : option (list (list A * list A));
  s_links : nat -> LinkResult }.

Definition spec_call (c : Rec A) (l : list Step) : list Step :=
  match c with
  | RBegin a b => mkStep a b None None None None (fun _ => LConfirm) :: l
  | _ =>
      match l with
      | [] => []
      | s :: r =>
          match c with
          | RPot v => mkStep (s_major s) (s_minor s) (s_step s) (Some v) (s_conv s) (s_contrib s) (s_links s)
          | RConv v => mkStep (s_major s) (s_minor s) (s_step s) (s_pot s) (Some v) (s_contrib s) (s_links s)
          | RContrib ls => mkStep (s_major s) (s_minor s) (s_step s) (s_pot s) (s_conv s) (Some ls) (s_links s)
          | RLink k x => mkStep (s_major s) (s_minor s) (s_step s) (s_pot s) (s_conv s) (s_contrib s)
                           (fun i => if (i =? k)%nat then x else s_links s i)
          | RStep d x => mkStep (s_major s) (s_minor s) (Some (d, x)) (s_pot s) (s_conv s) (s_contrib s) (s_links s)
          | RBegin _ _ => s
          end :: r
      end
  end.
Definition recorded (cs : list (Rec A)) (l : list Step) : list Step := fold_left (fun l c => spec_call c l) cs l.

(** The frame agrees with everything that was recorded. *)
Definition matches (s : Step) (f : Frame A) : Prop :=
  f_major f = s_major s /\ f_minor f = s_minor s /\
  (forall d r, s_step s = Some (d, r) -> f_decomp f = d /\ f_result f = r) /\
  (forall v, s_pot s = Some v -> f_pot f = v) /\
  (forall v, s_conv s = Some v -> f_conv f = v) /\
  (forall ls, s_contrib s = Some ls -> map (fun d => (ld_admit d, ld_source d)) (f_links f) = ls) /\
  (forall k d, nth_error (f_links f) k = Some d -> ld_result d = s_links s k).

(** The rows of a log of [n] steps, oldest first. *)
Definition latest (n : Z) (l : list Step) : list Step := rev (firstn (Z.to_nat n) l).

(** The arrays have the dimensions of a network of [n] nodes and links with the given
    numbers of ports. *)
Definition link_dims (p : nat) (mv : list A * list A) : Prop :=
  List.length (fst mv) = (p * p)%nat /\ List.length (snd mv) = p.
Definition dims (n : nat) (ports : list nat) (c : Rec A) : Prop :=
  match c with
  | RPot v | RConv v => List.length v = n
  | RContrib ls => Forall2 link_dims ports ls
  | RLink k _ => (k < List.length ports)%nat
  | _ => True
  end.
Definition frame_dims (n : nat) (ports : list nat) (f : Frame A) : Prop :=
  List.length (f_pot f) = n /\ List.length (f_conv f) = n /\
  Forall2 link_dims ports (map (fun d => (ld_admit d, ld_source d)) (f_links f)).
End SPEC.
Arguments Step : clear implicits.
