(** Link port map and flux transport.
    Source: /repo/core/GunnsBasicLink.cpp, GunnsBasicLink.hh, GunnsBasicNode.hh. *)
From Coq Require Import Lia List Arith Bool ZArith.
From Verif Require Import Num Loops.
Import ListNotations.

Inductive portctl := PReady | PExecute | PFailed | PDefault | PGround.

Definition setz {A} (m : Z -> A) (i : Z) (v : A) : Z -> A :=
  fun a => if Z.eqb a i then v else m a.

(** The members of GunnsBasicLink that take part in port mapping.  A node
    pointer [mNodes[port]] is the index of the node it points to.  [l_ub]
    becomes true when a pointer is formed from an index outside the node array
    (undefined behaviour in C++). *)
Record plink := {
  l_map : Z -> Z;          (* mNodeMap *)
  l_def : Z -> Z;          (* mDefaultNodeMap *)
  l_ptr : Z -> option Z;   (* mNodes *)
  l_amap : Z -> Z;         (* mAdmittanceMap.mMap *)
  l_upd : bool;            (* mAdmittanceUpdate *)
  l_lock : bool;           (* mNodeMapLocked *)
  l_sel : Z;               (* mUserPortSelect *)
  l_seln : Z;              (* mUserPortSelectNode *)
  l_ctl : portctl;         (* mUserPortSetControl *)
  l_ub : bool
}.

Section LINK.
(** [P] is mNumPorts, [G] is getGroundNodeIndex() = mNodeList->mNumNodes - 1
    (GunnsBasicLink.cpp:764-767); [rules] is the virtual checkSpecificPortRules,
    which may read the link's state. *)
Variable P : nat.
Variable G : Z.
Variable rules : plink -> Z -> Z -> bool.

(** GunnsBasicLink.cpp:696-699. *)
Definition valid_port (port : Z) : bool := (-1 <? port)%Z && (port <? Z.of_nat P)%Z.

(** GunnsBasicLink.cpp:708-711. *)
Definition valid_node (node : Z) : bool := (-1 <? node)%Z && (node <=? G)%Z.

(** GunnsBasicLink.cpp:569-584. *)
Definition no_duplicate (l : plink) (port node : Z) : bool :=
  loop (fun q r =>
          if negb (Z.eqb port (Z.of_nat q)) && Z.eqb (l_map l (Z.of_nat q)) node && (node <? G)%Z
          then false else r) 0 P true.

(** GunnsBasicLink.cpp:529-556. *)
Definition check_port_rules (l : plink) (port node : Z) : bool :=
  let r := if negb (valid_port port) then false
           else if negb (valid_node node) then false
           else no_duplicate l port node in
  if r then rules l port node else r.

Definition with_map (l : plink) (m : Z -> Z) (u : bool) : plink :=
  {| l_map := m; l_def := l_def l; l_ptr := l_ptr l; l_amap := l_amap l; l_upd := u;
     l_lock := l_lock l; l_sel := l_sel l; l_seln := l_seln l; l_ctl := l_ctl l; l_ub := l_ub l |}.
Definition with_ptr (l : plink) (p : Z -> option Z) (ub : bool) : plink :=
  {| l_map := l_map l; l_def := l_def l; l_ptr := p; l_amap := l_amap l; l_upd := l_upd l;
     l_lock := l_lock l; l_sel := l_sel l; l_seln := l_seln l; l_ctl := l_ctl l; l_ub := ub |}.
Definition with_amap (l : plink) (a : Z -> Z) : plink :=
  {| l_map := l_map l; l_def := l_def l; l_ptr := l_ptr l; l_amap := a; l_upd := l_upd l;
     l_lock := l_lock l; l_sel := l_sel l; l_seln := l_seln l; l_ctl := l_ctl l; l_ub := l_ub l |}.
Definition with_def (l : plink) (d : Z -> Z) : plink :=
  {| l_map := l_map l; l_def := d; l_ptr := l_ptr l; l_amap := l_amap l; l_upd := l_upd l;
     l_lock := l_lock l; l_sel := l_sel l; l_seln := l_seln l; l_ctl := l_ctl l; l_ub := l_ub l |}.
Definition with_lock (l : plink) (b : bool) : plink :=
  {| l_map := l_map l; l_def := l_def l; l_ptr := l_ptr l; l_amap := l_amap l; l_upd := l_upd l;
     l_lock := b; l_sel := l_sel l; l_seln := l_seln l; l_ctl := l_ctl l; l_ub := l_ub l |}.
Definition with_user (l : plink) (s n : Z) (c : portctl) : plink :=
  {| l_map := l_map l; l_def := l_def l; l_ptr := l_ptr l; l_amap := l_amap l; l_upd := l_upd l;
     l_lock := l_lock l; l_sel := s; l_seln := n; l_ctl := c; l_ub := l_ub l |}.

(** GunnsBasicLink.cpp:512-517. *)
Definition update_node_pointer (l : plink) (port : Z) : plink :=
  if valid_port port
  then with_ptr l (setz (l_ptr l) port (Some (l_map l port)))
                  (l_ub l || negb (valid_node (l_map l port)))
  else l.

(** GunnsBasicLink.cpp:374-391. *)
Definition update_admittance_map (l : plink) : plink :=
  with_amap l
    (loop (fun p1 am =>
       loop (fun p2 am =>
          let node1 := l_map l (Z.of_nat p1) in
          let node2 := l_map l (Z.of_nat p2) in
          setz am (Z.of_nat p1 * Z.of_nat P + Z.of_nat p2)%Z
               (if Z.eqb node1 G || Z.eqb node2 G then (-1)%Z else (node1 * G + node2)%Z))
         0 P am) 0 P (l_amap l)).

(** GunnsBasicLink.cpp:477-503 (messages omitted). *)
Definition set_port (l : plink) (port node : Z) : plink * bool :=
  let result := negb (l_lock l) && check_port_rules l port node in
  let l1 := if result && negb (Z.eqb node (l_map l port))
            then with_map l (setz (l_map l) port node) true else l in
  (update_admittance_map (update_node_pointer l1 port), result).

(** GunnsBasicLink.cpp:313-319.  [portMap] is passed as the address of an array;
    at restart it is mDefaultNodeMap itself, so element [i] is read after the
    previous iterations have written mDefaultNodeMap (with the values it had). *)
Definition register_nodes (portMap : Z -> Z) (l : plink) : plink :=
  loop (fun i l =>
          let i := Z.of_nat i in
          fst (set_port (with_def l (setz (l_def l) i (portMap i))) i (portMap i))) 0 P l.

(** GunnsBasicLink.cpp:436-452: no port is left unmapped or without a pointer. *)
Definition validate_nodes (l : plink) : bool :=
  loop (fun p ok => ok && negb (l_map l (Z.of_nat p) <? 0)%Z
                       && (if l_ptr l (Z.of_nat p) then true else false)) 0 P true.

(** The state after the constructor and allocateMatrixAndVectors
    (GunnsBasicLink.cpp:184-216 and 324-349). *)
Definition blank : plink :=
  {| l_map := fun _ => (-1)%Z; l_def := fun _ => (-1)%Z; l_ptr := fun _ => None;
     l_amap := fun _ => (-1)%Z; l_upd := false; l_lock := false; l_sel := (-1)%Z;
     l_seln := (-1)%Z; l_ctl := PReady; l_ub := false |}.

(** GunnsBasicLink.cpp:236-286: the port-map part of initialize; [locked] is the
    lock flag at the call and [ports] is the map used (input data or argument);
    line 282 is initializeRestartCommonFunctions.
    [None]: TsInitializationException. *)
Definition initialize_ports (locked : bool) (ports : Z -> Z) : option plink :=
  let l := with_lock (register_nodes ports (with_lock blank false)) locked in
  if (0 <? P)%nat && validate_nodes l
  then Some (with_user (with_map l (l_map l) false) (-1)%Z (-1)%Z PReady) else None.

(** GunnsBasicLink.cpp:291-296, with initializeRestartCommonFunctions
    (GunnsBasicLink.hh:489-496, port members only). *)
Definition restart_ports (l : plink) : plink :=
  register_nodes (l_def l) (with_user (with_map l (l_map l) false) (-1)%Z (-1)%Z PReady).

(** GunnsBasicLink.cpp:640-674. *)
Definition process_user (l : plink) : plink :=
  let l1 :=
    match l_ctl l with
    | PDefault => if valid_port (l_sel l) then with_user l (l_sel l) (l_def l (l_sel l)) PExecute
                  else with_user l (-1)%Z (-1)%Z PFailed
    | PGround => with_user l (l_sel l) G PExecute
    | _ => l
    end in
  match l_ctl l1 with
  | PExecute =>
      let (l2, r) := set_port l1 (l_sel l1) (l_seln l1) in
      with_user l2 (-1)%Z (-1)%Z (if r then PReady else PFailed)
  | _ => l1
  end.

(** GunnsBasicLink.cpp:459-464. *)
Definition need_admittance_update (l : plink) : plink * bool :=
  (with_map l (l_map l) false, l_upd l).

(** Everything the outside can do to the port map at run time. *)
Inductive request :=
| QSet (port node : Z)                    (* setPort *)
| QUser (port node : Z) (c : portctl)     (* operator writes the user port members *)
| QStep                                   (* processUserPortCommand in step *)
| QLock (b : bool)                        (* lockNodeMap / unlockNodeMap *)
| QPoll                                   (* needAdmittanceUpdate *)
| QRestart.                               (* restart *)

Definition act (l : plink) (q : request) : plink :=
  match q with
  | QSet p n => fst (set_port l p n)
  | QUser p n c => with_user l p n c
  | QStep => process_user l
  | QLock b => with_lock l b
  | QPoll => fst (need_admittance_update l)
  | QRestart => restart_ports l
  end.

Definition acts (l : plink) (qs : list request) : plink := fold_left act qs l.
End LINK.

(** Flux bookkeeping of nodes: GunnsBasicNode.hh:607-621. *)
Section FLUX.
Context {T : Type} {N : Num T}.

Record fluxes := { f_in : Z -> T; f_out : Z -> T }.   (* mInfluxRate, mOutfluxRate by node *)

Definition collect_influx (s : fluxes) (node : Z) (x : T) : fluxes :=
  {| f_in := setz (f_in s) node (f_in s node +~ x); f_out := f_out s |}.
Definition collect_outflux (s : fluxes) (node : Z) (x : T) : fluxes :=
  {| f_in := f_in s; f_out := setz (f_out s) node (f_out s node +~ x) |}.

(** GunnsBasicLink.cpp:595-611; [nodes] is mNodes as node indices.
    [None]: TsOutOfBoundsException. *)
Definition transport_flux (P : nat) (nodes : Z -> Z) (flux : T) (from to : Z) (s : fluxes)
  : option fluxes :=
  if valid_port P to && valid_port P from then
    Some (if n0 <~ flux then
            collect_influx (collect_outflux s (nodes from) flux) (nodes to) flux
          else if flux <~ n0 then
            collect_influx (collect_outflux s (nodes to) (nopp flux)) (nodes from) (nopp flux)
          else s)
  else None.

(** Links of a network transporting in turn (each call: ports, map, flux, from, to). *)
Definition call := (nat * (Z -> Z) * T * Z * Z)%type.
Definition transport_all (cs : list call) (s : fluxes) : option fluxes :=
  fold_left (fun os c => match os, c with
                         | Some s, (P, nodes, flux, from, to) => transport_flux P nodes flux from to s
                         | None, _ => None
                         end) cs (Some s).
End FLUX.
