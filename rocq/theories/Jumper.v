(** Jumper plugs and sockets.
    Source: /repo/core/GunnsBasicJumperPlug.cpp, GunnsBasicJumperPlug.hh,
    GunnsBasicSocket.cpp, GunnsBasicSocket.hh, GunnsBasicJumper.cpp.

    Simplifications: plugs and sockets are numbered; a pointer to one is its
    number.  The derived class that holds the four connection attributes and the
    enumeration is generated per network; it is taken to store what it is given
    (as the one of UtGunnsBasicJumperPlug.hh does), getNoConnection() to be the
    number of sockets in the list, as the constructor's listSize and initialize()
    demand, and all sockets to be initialized.  Messages are left out. *)
From Coq Require Import List Arith Bool ZArith Lia.
Import ListNotations.
Local Open Scope Z_scope.

Record plug := mkplug {
  g_list : list nat;   (* mSockets *)
  g_node : Z;          (* mConnectedNode *)
  g_direct : Z;        (* mDirectConnectionRequest *)
  g_disable : bool;    (* mDirectConnectionDisable *)
  g_active : Z;        (* the derived class's active connection, *)
  g_last : Z;          (* last disconnection, *)
  g_conn : Z;          (* connection request *)
  g_disc : Z           (* and disconnection request *)
}.
Record socket := mksocket {
  k_plug : option nat;   (* mConnection *)
  k_has : bool;          (* mHasConnection *)
  k_n0 : Z; k_n1 : Z     (* mNodeMap *)
}.
Record sys := mksys { y_plug : nat -> plug; y_sock : nat -> socket }.

(** getNoConnection(). *)
Definition none (g : plug) : Z := Z.of_nat (length (g_list g)).

Definition with_node (g : plug) (x : Z) : plug :=
  mkplug (g_list g) x (g_direct g) (g_disable g) (g_active g) (g_last g) (g_conn g) (g_disc g).
Definition with_direct (g : plug) (x : Z) : plug :=
  mkplug (g_list g) (g_node g) x (g_disable g) (g_active g) (g_last g) (g_conn g) (g_disc g).
Definition with_disable (g : plug) (x : bool) : plug :=
  mkplug (g_list g) (g_node g) (g_direct g) x (g_active g) (g_last g) (g_conn g) (g_disc g).
Definition with_active (g : plug) (x : Z) : plug :=
  mkplug (g_list g) (g_node g) (g_direct g) (g_disable g) x (g_last g) (g_conn g) (g_disc g).
Definition with_last (g : plug) (x : Z) : plug :=
  mkplug (g_list g) (g_node g) (g_direct g) (g_disable g) (g_active g) x (g_conn g) (g_disc g).
Definition with_conn (g : plug) (x : Z) : plug :=
  mkplug (g_list g) (g_node g) (g_direct g) (g_disable g) (g_active g) (g_last g) x (g_disc g).
Definition with_disc (g : plug) (x : Z) : plug :=
  mkplug (g_list g) (g_node g) (g_direct g) (g_disable g) (g_active g) (g_last g) (g_conn g) x.
Definition with_plug (k : socket) (p : option nat) (h : bool) : socket :=
  mksocket p h (k_n0 k) (k_n1 k).

Definition setn {A} (m : nat -> A) (i : nat) (v : A) : nat -> A :=
  fun a => if Nat.eqb a i then v else m a.
Definition put_plug (s : sys) (p : nat) (g : plug) : sys := mksys (setn (y_plug s) p g) (y_sock s).
Definition put_sock (s : sys) (i : nat) (k : socket) : sys := mksys (y_plug s) (setn (y_sock s) i k).

(** GunnsBasicJumperPlug.cpp:170-181; [None] is TsOutOfBoundsException. *)
Definition get_socket (g : plug) (i : Z) : option nat :=
  if (i <? 0) || (none g <=? i) then None else nth_error (g_list g) (Z.to_nat i).

(** GunnsBasicSocket.cpp:206-223; [None] is TsInvalidStateTransitionException. *)
Definition request_connection (s : sys) (i p : nat) : option (sys * Z) :=
  let k := y_sock s i in
  match k_plug k with
  | Some _ => None
  | None => Some (put_sock s i (with_plug k (Some p) true), k_n0 k)
  end.
(** GunnsBasicSocket.hh:156-159. *)
Definition is_connected (s : sys) (i p : nat) : bool :=
  match k_plug (y_sock s i) with Some q => Nat.eqb p q | None => false end.
(** GunnsBasicSocket.cpp:236-245. *)
Definition request_disconnection (s : sys) (i p : nat) : sys * Z :=
  let k := y_sock s i in
  (if is_connected s i p then put_sock s i (with_plug k None false) else s, k_n1 k).

(** GunnsBasicJumperPlug.cpp:300-310. *)
Fixpoint first_connected (s : sys) (p : nat) (l : list nat) (i : Z) : option Z :=
  match l with
  | [] => None
  | k :: l => if is_connected s k p then Some i else first_connected s p l (i + 1)
  end.
Definition update_active (s : sys) (p : nat) : sys :=
  let g := y_plug s p in
  put_plug s p (with_active g (match first_connected s p (g_list g) 0 with Some i => i | None => none g end)).

(** GunnsBasicJumperPlug.cpp:196-227; the index is in range when getSocket is called. *)
Definition process_direct (s : sys) (p : nat) : sys :=
  let g := y_plug s p in
  let g := if g_disable g then with_direct g (-99) else g in
  let g :=
    if (0 <=? g_direct g) && (g_direct g <=? none g) && negb (g_direct g =? g_active g)
    then let g := with_disc g (g_active g) in
         if negb (g_direct g =? none g)
         then match get_socket g (g_direct g) with
              | Some i => if k_has (y_sock s i) then g else with_conn g (g_direct g)
              | None => g
              end
         else g
    else g in
  put_plug s p g.

(** GunnsBasicJumperPlug.cpp:268-289; [true]: an exception left the function. *)
Definition process_disc (s : sys) (p : nat) : sys * bool :=
  let g := y_plug s p in
  let fin s := (put_plug s p (with_disc (y_plug s p) (none g)), false) in
  if negb (none g =? g_disc g)
  then if negb (g_active g =? g_disc g) && negb (g_active g =? none g)
       then fin s
       else match get_socket g (g_disc g) with
            | None => (s, true)
            | Some i =>
                let (s1, node) := request_disconnection s i p in
                fin (put_plug s1 p (with_last (with_node (y_plug s1 p) node) (g_disc g)))
            end
  else fin s.

(** GunnsBasicJumperPlug.cpp:236-259. *)
Definition process_conn (s : sys) (p : nat) : sys * bool :=
  let g := y_plug s p in
  let fin s := (put_plug s p (with_conn (y_plug s p) (none g)), false) in
  if negb (none g =? g_conn g)
  then if negb (none g =? g_active g)
       then fin s
       else match get_socket g (g_conn g) with
            | None => (s, true)
            | Some i =>
                match request_connection s i p with
                | None => fin s
                | Some (s1, node) =>
                    fin (put_plug s1 p (with_last (with_node (y_plug s1 p) node) (none g)))
                end
            end
  else fin s.

(** GunnsBasicJumperPlug.cpp:142-157; the node is the plug's afterwards. *)
Definition update (s : sys) (p : nat) (node : Z) : sys * bool :=
  let s := put_plug s p (with_node (y_plug s p) node) in
  let s := process_direct s p in
  let (s, e) := process_disc s p in
  if e then (s, true) else
  let s := update_active s p in
  let (s, e) := process_conn s p in
  if e then (s, true) else (update_active s p, false).

(** GunnsBasicJumperPlug.cpp:96-131; [None]: the plug does not initialize. *)
Definition initialize (s : sys) (p : nat) (node sock : Z) : option sys :=
  let g := with_disable (with_direct (y_plug s p) (-99)) false in
  if (sock <? 0) || (none g <? sock) then None else
  let s := put_plug s p (with_conn (with_node g node) sock) in
  let (s, e) := process_conn s p in
  if e then None else
  let s := update_active s p in
  if g_active (y_plug s p) =? sock then Some s else None.

(** A jumper: its two ports and plugs. *)
Record jumper := mkjumper {
  j_m0 : Z; j_m1 : Z;                          (* mNodeMap *)
  j_lock : bool;                               (* mNodeMapLocked *)
  j_p0 : option nat; j_p1 : option nat;        (* mPlug *)
  j_seal0 : bool; j_seal1 : bool;              (* mSelfSealing0, mSelfSealing1 *)
  j_upd : bool                                 (* mAdmittanceUpdate *)
}.
(** GunnsBasicLink.cpp:477-503 with GunnsBasicJumper.hh:151-154, and without
    further rules: [ground] is the last node. *)
Definition set_port0 (ground : Z) (j : jumper) (node : Z) : jumper :=
  if negb (j_lock j) && (-1 <? node) && (node <=? ground) && negb (node =? j_m0 j)
  then mkjumper node (j_m1 j) (j_lock j) (j_p0 j) (j_p1 j) (j_seal0 j) (j_seal1 j) true else j.
Definition set_port1 (ground : Z) (j : jumper) (node : Z) : jumper :=
  if negb (j_lock j) && (-1 <? node) && (node <=? ground) && negb (node =? j_m1 j)
  then mkjumper (j_m0 j) node (j_lock j) (j_p0 j) (j_p1 j) (j_seal0 j) (j_seal1 j) true else j.

(** GunnsBasicJumper.cpp:254-264. *)
Definition update_plugs (ground : Z) (s : sys) (j : jumper) : sys * jumper * bool :=
  let '(s, j, e) :=
    match j_p0 j with
    | None => (s, j, false)
    | Some p => let (s, e) := update s p (j_m0 j) in
                (s, if e then j else set_port0 ground j (g_node (y_plug s p)), e)
    end in
  if e then (s, j, true) else
  match j_p1 j with
  | None => (s, j, false)
  | Some p => let (s, e) := update s p (j_m1 j) in
              (s, if e then j else set_port1 ground j (g_node (y_plug s p)), e)
  end.
(** GunnsBasicJumper.cpp:226-245: whether the effective conductivity is zeroed. *)
Definition unplugged (s : sys) (p : option nat) : bool :=
  match p with Some p => none (y_plug s p) =? g_active (y_plug s p) | None => false end.
Definition blocked (s : sys) (j : jumper) : bool :=
  (j_seal0 j && unplugged s (j_p0 j)) || (j_seal1 j && unplugged s (j_p1 j)) || (j_m0 j =? j_m1 j).
(** GunnsBasicSocket.cpp:254-259. *)
Definition socket_blocked (seal : bool) (k : socket) : bool :=
  seal || match k_plug k with Some _ => true | None => false end.

(** GunnsBasicJumper.cpp:193-216, the requests of the restart. *)
Definition restart_requests (s : sys) (p : nat) : sys :=
  let g := y_plug s p in
  put_plug s p
    (if negb (none g =? g_active g)
     then with_conn (with_disc g (g_active g)) (g_active g)
     else with_conn (with_disc g (g_last g)) (none g)).
Definition restart_plug (s : sys) (p : option nat) : sys :=
  match p with Some p => restart_requests s p | None => s end.
(** GunnsBasicLink.cpp:291-296: the ports go back to their defaults first. *)
Definition restart_jumper (ground d0 d1 : Z) (s : sys) (j : jumper) : sys * jumper * bool :=
  let j := set_port1 ground (set_port0 ground
     (mkjumper (j_m0 j) (j_m1 j) (j_lock j) (j_p0 j) (j_p1 j) (j_seal0 j) (j_seal1 j) false) d0) d1 in
  update_plugs ground (restart_plug (restart_plug s (j_p0 j)) (j_p1 j)) j.
