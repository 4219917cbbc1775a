(** Super-networks: how networks are merged, where their nodes lie, and how locations are joined.
    Source: /repo/core/network/GunnsSuperNetworkBase.cpp and .hh, GunnsNetworkBase.cpp.

    Networks, super-networks and locations (connector spotters) are numbered; pointers are numbers and null
    is [None].  An exception that is caught leaves the state as it was.  Links, names and messages are left
    out. *)
From Coq Require Import List Arith ZArith Bool.
Import ListNotations.
Local Open Scope Z_scope.

(** A network: its number of nodes with the ground, its offset, its super-network, its joint index. *)
Record net := mknet { t_size : Z; t_off : Z; t_sup : option nat; t_index : Z }.
Record joint := mkjoint { j_net : nat; j_1 : nat; j_2 : nat }.
(** A super-network: its sub-networks, its number of nodes, whether the nodes are allocated, its joints. *)
Record sup := mksup { u_subs : list nat; u_nodes : Z; u_reg : bool; u_joints : list joint }.
(** [h_new] is the address the next created network gets. *)
Record heap := mkheap { h_net : nat -> net; h_sup : nat -> sup; h_new : nat }.
(** What is fixed for locations: their networks and joint types; [w_size] is the size of the joint network
    that is created for a type. *)
Record world := mkworld { w_net : nat -> nat; w_type : nat -> Z; w_size : Z -> Z }.

Definition set_net (n : nat) (x : net) (h : heap) : heap :=
  mkheap (fun m => if Nat.eqb m n then x else h_net h m) (h_sup h) (h_new h).
Definition set_sup (s : nat) (x : sup) (h : heap) : heap :=
  mkheap (h_net h) (fun r => if Nat.eqb r s then x else h_sup h r) (h_new h).
(** setNodeOffset, GunnsNetworkBase.cpp:60-64. *)
Definition set_offset (n : nat) (o : Z) (s : option nat) (h : heap) : heap :=
  set_net n (mknet (t_size (h_net h n)) o s (t_index (h_net h n))) h.
(** isSubNetworkAdded, GunnsSuperNetworkBase.hh:228-236. *)
Definition added (s n : nat) (h : heap) : bool := existsb (Nat.eqb n) (u_subs (h_sup h s)).
(** GunnsSuperNetworkBase.cpp:143-145. *)
Definition push (s n : nat) (h : heap) : heap :=
  let u := h_sup h s in
  let h := set_offset n (u_nodes u) (Some s) h in
  set_sup s (mksup (u_subs u ++ [n]) (u_nodes u + (t_size (h_net h n) - 1)) (u_reg u) (u_joints u)) h.
(** empty, GunnsSuperNetworkBase.hh:272-278. *)
Definition empty (s : nat) (h : heap) : heap := set_sup s (mksup [] 0 false (u_joints (h_sup h s))) h.
(** addSubNetwork of a super-network, :165-188.  Each network has no super-network when it is added. *)
Definition move (s : nat) (h : heap) (n : nat) : heap :=
  let h := set_offset n 0 None h in if added s n h then h else push s n h.
Definition add_sup (s s' : nat) (h : heap) : heap :=
  if u_reg (h_sup h s) then h else empty s' (fold_left (move s) (u_subs (h_sup h s')) h).
(** addSubNetwork of a network, :126-154. *)
Definition add_net (s n : nat) (h : heap) : heap :=
  if u_reg (h_sup h s) then h
  else if added s n h then h
  else match t_sup (h_net h n) with Some s' => add_sup s s' h | None => push s n h end.
(** registerSuperNodes, :199-227. *)
Definition register (s : nat) (h : heap) : heap :=
  let u := h_sup h s in
  if u_reg u then h else set_sup s (mksup (u_subs u) (u_nodes u + 1) true (u_joints u)) h.
(** getLocationJoint, :237-246. *)
Definition touches (l : nat) (j : joint) : bool := Nat.eqb l (j_1 j) || Nat.eqb l (j_2 j).
Definition loc_joint (js : list joint) (l : nat) : option nat := option_map j_net (find (touches l) js).
(** joinLocations, :301-351; the flag is false if an exception is thrown. *)
Definition add_joint (s : nat) (j : joint) (h : heap) : heap :=
  let u := h_sup h s in set_sup s (mksup (u_subs u) (u_nodes u) (u_reg u) (u_joints u ++ [j])) h.
Definition create (w : world) (s : nat) (ty : Z) (h : heap) : heap :=
  mkheap (fun m => if Nat.eqb m (h_new h) then mknet (w_size w ty) 0 None (Z.of_nat (length (u_joints (h_sup h s)))) else h_net h m)
         (h_sup h) (S (h_new h)).
Definition join (w : world) (s l1 l2 : nat) (h : heap) : heap * bool :=
  if negb (w_type w l1 =? w_type w l2) then (h, false)
  else
    let go n h := add_net s (w_net w l2) (add_net s (w_net w l1) (add_net s n (add_joint s (mkjoint n l1 l2) h))) in
    match loc_joint (u_joints (h_sup h s)) l1, loc_joint (u_joints (h_sup h s)) l2 with
    | Some _, Some _ => (h, false)
    | Some n, None => (go n h, true)
    | None, Some n => (go n h, true)
    | None, None => (go (h_new h) (create w s (w_type w l1) h), true)
    end.
(** initialize, :359-421: the connections that are made, as locations and offsets. *)
Definition connects (s : nat) (h : heap) : list (nat * Z) :=
  let u := h_sup h s in
  match u_subs u with
  | [] => []
  | _ => flat_map (fun j => let o := t_off (h_net h (j_net j)) in [(j_1 j, o); (j_2 j, o)]) (u_joints u)
  end.

Inductive op := AddNet (s n : nat) | AddSup (s s' : nat) | Register (s : nat) | Join (s l1 l2 : nat).
Definition do_op (w : world) (h : heap) (o : op) : heap :=
  match o with
  | AddNet s n => add_net s n h
  | AddSup s s' => add_sup s s' h
  | Register s => register s h
  | Join s l1 l2 => fst (join w s l1 l2 h)
  end.
Definition run (w : world) (os : list op) (h : heap) : heap := fold_left (do_op w) os h.
(** Networks of the given sizes, none of them in a super-network, and empty super-networks. *)
Definition fresh (sizes : list Z) : heap :=
  mkheap (fun n => mknet (nth n sizes 1) 0 None (-1)) (fun _ => mksup [] 0 false []) (length sizes).
