(** Specification of the solver step: counts over the calls made, the
    decision rule, and what a run of minor steps must look like. *)
From Coq Require Import List Arith Bool.
From Verif Require Import Num StepModel.
Import ListNotations.

Section Spec.
  Context {T E : Type}.

  Definition count (f : call T E -> bool) (cs : list (call T E)) : nat := length (filter f cs).
  Definition is_decomp (c : call T E) := match c with CDecomp => true | _ => false end.
  Definition is_link_step (l : nat) (c : call T E) := match c with CStep m => Nat.eqb m l | _ => false end.
  Definition is_link_minor (l : nat) (c : call T E) := match c with CMinor m _ => Nat.eqb m l | _ => false end.
  Definition is_flow (c : call T E) := match c with CUpdate | COut _ => true | _ => false end.
End Spec.

(** Reject outranks delay outranks confirm; a delay before convergence
    ([c = 0]) counts as a confirm. *)
Definition effective (c : nat) (d : decision) : decision :=
  match d with DELAY => if Nat.eqb c 0 then CONFIRM else DELAY | _ => d end.
Definition verdict (c : nat) (ds : list decision) : decision :=
  if existsb (fun d => is_reject (effective c d)) ds then REJECT
  else if existsb (fun d => is_delay (effective c d)) ds then DELAY else CONFIRM.

Section Runs.
  Context {T : Type} `{Num T}.
  Variable n : nat.
  (** Equal on the nodes. *)
  Definition same_on (x y : nat -> T) : Prop := forall i, i < n -> x i = y i.
  (** No node moved by more than the tolerance. *)
  Definition close (tol : T) (x y : nat -> T) : Prop :=
    forall i, i < n -> (tol <~ nabs (x i -~ y i)) = false.
End Runs.

(** Runs of minor steps, oldest first. *)
Section Records.
  Context {T : Type} `{Num T} {E : Type}.
  Local Notation rec := (@mrec T E).

  (** Potentials of the latest minor step that was not rejected, else [m0]. *)
  Fixpoint last_kept (m0 : nat -> T) (rs : list rec) : nat -> T :=
    match rs with
    | [] => m0
    | r :: rs => last_kept (if is_reject (r_dec r) then m0 else r_P r) rs
    end.

  (** Every step is compared with the latest step that was not rejected, and
      leaves either its own potentials or, if rejected, those. *)
  Definition well_chained (n : nat) (m0 : nat -> T) (rs : list rec) : Prop :=
    forall a r b, rs = a ++ r :: b ->
      same_on n (r_ref r) (last_kept m0 a) /\
      same_on n (r_after r) (if is_reject (r_dec r) then last_kept m0 a else r_P r).

  (** The run ends in delays that started with a converged step and did not
      move the potentials since. *)
  Definition settled (n : nat) (tol : T) (rs : list rec) : Prop :=
    exists a r b, rs = a ++ r :: b /\ close n tol (r_ref r) (r_P r) /\ r_dec r = DELAY /\
      Forall (fun q => r_dec q = DELAY /\ same_on n (r_P q) (r_P r)) b.
End Records.
