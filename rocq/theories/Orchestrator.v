(** The fluid flow orchestrator: in which order links transport and nodes integrate.
    Source: /repo/core/GunnsFluidFlowOrchestrator.cpp.

    Simplifications: what a link or node does when called is not modelled here, only
    that and when it is called; the port directions and the overflow flags are those
    found after the computeFlows calls, and the calls are taken not to throw and not
    to change the port directions (they are set in computeFlows).  The ground node,
    number [o_nodes], is never overflowing nor integrated. *)
From Coq Require Import List Arith Bool Lia.
Import ListNotations.

(** GunnsBasicLink::PortDirection. *)
Inductive dir := DNone | DSource | DSink | DBoth.
Record net := mknet {
  o_links : nat;                         (* mNumLinks *)
  o_nodes : nat;                         (* mNumNodes - 1 *)
  o_ports : nat -> list (nat * dir);     (* mLinkNodeMaps and mLinkPortDirections *)
  o_over : nat -> bool                   (* isOverflowing *)
}.
Inductive nstate := Incomplete | Overflowing | Complete.
(** A call: computeFlows, transportFlows in a pass, transportFlows forced by
    checkAllComplete, integrateFlows. *)
Inductive event := Compute (l : nat) | Transport (l : nat) | Early (l : nat) | Integrate (n : nat).
Record st := mkst {
  t_link : nat -> bool;     (* mLinkStates *)
  t_node : nat -> nstate;   (* mNodeStates *)
  t_num : nat;              (* mNumIncompleteLinks *)
  t_log : list event        (* the calls made, latest first *)
}.

Definition setb {A} (m : nat -> A) (i : nat) (v : A) : nat -> A := fun a => if Nat.eqb a i then v else m a.
Definition done_link (s : st) (l : nat) (e : event) : st :=
  mkst (setb (t_link s) l true) (t_node s) (t_num s) (e :: t_log s).
Definition done_node (s : st) (n : nat) : st :=
  mkst (t_link s) (setb (t_node s) n Complete) (t_num s) (Integrate n :: t_log s).
Definition is_complete (x : nstate) : bool := match x with Complete => true | _ => false end.
Definition is_over (x : nstate) : bool := match x with Overflowing => true | _ => false end.
Definition takes (d : dir) : bool := match d with DSource | DBoth => true | _ => false end.
Definition gives (d : dir) : bool := match d with DSink | DBoth => true | _ => false end.

(** GunnsFluidFlowOrchestrator.cpp:242-254. *)
Definition sources_ready (o : net) (s : st) (l : nat) : bool :=
  forallb (fun q : nat * dir => negb (takes (snd q) && is_over (t_node s (fst q)))) (o_ports o l).
(** GunnsFluidFlowOrchestrator.cpp:264-281. *)
Definition inputs_complete (o : net) (s : st) (n : nat) : bool :=
  forallb (fun l => forallb (fun q : nat * dir => negb (Nat.eqb n (fst q) && negb (t_link s l) && gives (snd q))) (o_ports o l))
          (seq 0 (o_links o)).
(** GunnsFluidFlowOrchestrator.cpp:288-297. *)
Definition count_incomplete (o : net) (s : st) : nat :=
  length (filter (fun l => negb (t_link s l)) (seq 0 (o_links o))).
(** GunnsFluidFlowOrchestrator.cpp:201-209. *)
Definition all_nodes_complete (o : net) (s : st) : bool :=
  forallb (fun n => is_complete (t_node s n)) (seq 0 (o_nodes o)).
(** GunnsFluidFlowOrchestrator.cpp:222-232; [None] is the exception. *)
Definition first_incomplete (o : net) (s : st) : option nat :=
  find (fun l => negb (t_link s l)) (seq 0 (o_links o)).

(** GunnsFluidFlowOrchestrator.cpp:127-132 and :136-141. *)
Definition link_step (o : net) (s : st) (l : nat) : st :=
  if negb (t_link s l) && sources_ready o s l then done_link s l (Transport l) else s.
Definition node_step (o : net) (s : st) (n : nat) : st :=
  if negb (is_complete (t_node s n)) && inputs_complete o s n then done_node s n else s.
Definition link_pass (o : net) (s : st) : st := fold_left (link_step o) (seq 0 (o_links o)) s.
Definition node_pass (o : net) (s : st) : st := fold_left (node_step o) (seq 0 (o_nodes o)) s.

(** GunnsFluidFlowOrchestrator.cpp:160-191: all complete, or the state to go on with,
    or the exception. *)
Inductive answer := All (s : st) | Again (s : st) | Thrown (s : st).
Definition check (o : net) (s : st) : answer :=
  let k := count_incomplete o s in
  if Nat.eqb k 0 && all_nodes_complete o s then All (mkst (t_link s) (t_node s) 0 (t_log s)) else
  if t_num s <=? k
  then match first_incomplete o s with
       | None => Thrown s
       | Some l => let s := done_link s l (Early l) in Again (mkst (t_link s) (t_node s) k (t_log s))
       end
  else Again (mkst (t_link s) (t_node s) k (t_log s)).

(** GunnsFluidFlowOrchestrator.cpp:123-142: the do loop, at most [fuel] times. *)
Fixpoint loop (o : net) (fuel : nat) (s : st) : option answer :=
  match fuel with
  | O => None
  | S fuel => match check o (node_pass o (link_pass o s)) with
              | Again s => loop o fuel s
              | a => Some a
              end
  end.
(** GunnsFluidFlowOrchestrator.cpp:103-118. *)
Definition begin (o : net) : st :=
  mkst (fun _ => false)
       (fun n => if Nat.eqb n (o_nodes o) then Complete else if o_over o n then Overflowing else Incomplete)
       (o_links o)
       (rev (map Compute (seq 0 (o_links o)))).
(** The calls of one update in the order they are made, and whether it throws. *)
Definition update (o : net) (fuel : nat) : option (list event * bool) :=
  match loop o fuel (begin o) with
  | Some (All s) => Some (rev (t_log s), false)
  | Some (Again s) | Some (Thrown s) => Some (rev (t_log s), true)
  | None => None
  end.
