(** * Model of the message rate filter

    Source: ms-utils/simulation/hs/TsHsMsgFilter.cpp and TsHsMsgStdFilter.cpp.

    Simplifications:
    - std::map<std::string, ...> is a list of pairs in increasing key order,
      with the byte order of std::string, which is the order of [String.compare].
    - [int] counters are integers with the outcome [UB] on overflow.
    - Calls come one after the other from one thread.  The mutex is a flag, and
      locking it when it is already locked is the outcome [Hang].
    - A loop that never ends is the outcome [Hang].
    - erase(end()) and back() of an empty deque are the outcome [UB].
    - The map never holds 2^31 messages, so its size fits an int. *)
From Coq Require Import List ZArith Bool Lia String Ascii DecimalString.
From Verif Require Import Num MsgQueue.
Import ListNotations.
Local Open Scope Z_scope.

(** What one call of shouldSendMessage is given. *)
Record Req (T : Type) := mkReq {
  r_time : T; r_file : string; r_line : Z; r_type : Z; r_subsys : string; r_text : string }.
Arguments mkReq {T}. Arguments r_time {T}. Arguments r_file {T}. Arguments r_line {T}.
Arguments r_type {T}. Arguments r_subsys {T}. Arguments r_text {T}.

(** TsHsMsgFilter.hh:141-150 and TsHsMsgStdFilter.hh:126-128. *)
Record Filter (T : Type) := mkFilter {
  f_enabled    : bool;                      (* mEnabled *)
  f_types      : Z;                         (* mFilteredTypes *)
  f_processed  : Z;                         (* mMessagesProcessed *)
  f_suppressed : Z;                         (* mMessagesSuppressed *)
  f_interval   : Z;                         (* mInterval *)
  f_count      : Z;                         (* mCount *)
  f_history    : Z;                         (* mHistory *)
  f_blocking   : bool;                      (* mBlocking *)
  f_map        : list (string * list T);    (* mMessageMap *)
  f_fails      : Z;                         (* mTryLockFailures *)
  f_lock       : bool                       (* mResourceLock *) }.
Arguments mkFilter {T}. Arguments f_enabled {T}. Arguments f_types {T}. Arguments f_processed {T}.
Arguments f_suppressed {T}. Arguments f_interval {T}. Arguments f_count {T}. Arguments f_history {T}.
Arguments f_blocking {T}. Arguments f_map {T}. Arguments f_fails {T}. Arguments f_lock {T}.

Definition bar : string := String "124"%char EmptyString.
Definition nul : string := String "000"%char EmptyString.

(** operator<< for int. *)
Definition dec_string (z : Z) : string := NilEmpty.string_of_int (Z.to_int z).

(** TsHsMsgStdFilter.cpp:177-179. *)
Definition key_of {T} (r : Req T) : string :=
  (r_file r ++ bar ++ dec_string (r_line r) ++ bar ++ r_subsys r ++ bar ++ r_text r ++ nul)%string.

(** 1 << bit_number for the five message types (TS_hs_msg_types.h:21-29). *)
Definition type_bit (type : Z) : Z := Z.shiftl 1 type.

(** TsHsMsgFilter.cpp:106-110. *)
Definition is_type_filtered {T} (f : Filter T) (type : Z) : bool :=
  negb (Z.land (f_types f) (type_bit type) =? 0).

(** TsHsMsgFilter.cpp:85-97. *)
Definition set_type_filter {T} (f : Filter T) (type : Z) (on : bool) : Filter T :=
  mkFilter (f_enabled f)
    (if on then Z.lor (f_types f) (type_bit type) else Z.land (f_types f) (Z.lnot (type_bit type)))
    (f_processed f) (f_suppressed f) (f_interval f) (f_count f) (f_history f) (f_blocking f)
    (f_map f) (f_fails f) (f_lock f).

(** TsHsMsgFilter.cpp:119-125. *)
Definition set_interval {T} (f : Filter T) (sec : Z) : Filter T :=
  if 0 <? sec then
    mkFilter (f_enabled f) (f_types f) (f_processed f) (f_suppressed f) sec (f_count f)
      (f_history f) (f_blocking f) (f_map f) (f_fails f) (f_lock f)
  else f.

(** TsHsMsgFilter.cpp:133-139. *)
Definition set_count {T} (f : Filter T) (count : Z) : Filter T :=
  if 0 <? count then
    mkFilter (f_enabled f) (f_types f) (f_processed f) (f_suppressed f) (f_interval f) count
      (f_history f) (f_blocking f) (f_map f) (f_fails f) (f_lock f)
  else f.

(** TsHsMsgFilter.cpp:147-153. *)
Definition set_history {T} (f : Filter T) (size : Z) : Filter T :=
  if 0 <? size then
    mkFilter (f_enabled f) (f_types f) (f_processed f) (f_suppressed f) (f_interval f) (f_count f)
      size (f_blocking f) (f_map f) (f_fails f) (f_lock f)
  else f.

(** TsHsMsgFilter.cpp:170-173. *)
Definition set_enabled {T} (f : Filter T) (b : bool) : Filter T :=
  mkFilter b (f_types f) (f_processed f) (f_suppressed f) (f_interval f) (f_count f)
    (f_history f) (f_blocking f) (f_map f) (f_fails f) (f_lock f).

(** TsHsMsgFilter.cpp:46-57, 35-37 and TsHsMsgStdFilter.cpp:35-41. *)
Definition filter_new {T} : Filter T := mkFilter true 0 0 0 60 2 25 false [] 0 false.

(** TsHsMsgStdFilter.cpp:49-64. *)
Definition filter_restart {T} (f : Filter T) : Filter T :=
  mkFilter (f_enabled f) (f_types f) (f_processed f) (f_suppressed f) (f_interval f) (f_count f)
    (f_history f) (f_blocking f) [] 0 false.

Section Map.
  Context {T : Type}.

  (** std::map::find. *)
  Fixpoint map_find (k : string) (m : list (string * list T)) : option (list T) :=
    match m with
    | [] => None
    | (k', v) :: r => if String.eqb k k' then Some v else map_find k r
    end.

  (** std::map::insert of a key that is not there. *)
  Fixpoint map_insert (k : string) (v : list T) (m : list (string * list T)) : list (string * list T) :=
    match m with
    | [] => [(k, v)]
    | (k', v') :: r => if String.ltb k k' then (k, v) :: m else (k', v') :: map_insert k v r
    end.

  (** Changing the value behind an iterator. *)
  Fixpoint map_update (k : string) (v : list T) (m : list (string * list T)) : list (string * list T) :=
    match m with
    | [] => []
    | (k', v') :: r => if String.eqb k k' then (k', v) :: r else (k', v') :: map_update k v r
    end.

  (** std::map::erase. *)
  Fixpoint map_erase (k : string) (m : list (string * list T)) : list (string * list T) :=
    match m with
    | [] => []
    | (k', v') :: r => if String.eqb k k' then r else (k', v') :: map_erase k r
    end.

  (** std::deque::back. *)
  Fixpoint back (l : list T) : outcome T :=
    match l with [] => UB | [x] => Ret x | _ :: r => back r end.
End Map.

Section Filter.
  Context {T : Type} {N : Num T}.

  (** TsHsMsgStdFilter.cpp:80-86. *)
  Fixpoint purge_times (times : list T) (start : T) : list T :=
    match times with
    | [] => []
    | t :: r => if t <~ start then purge_times r start else times
    end.

  (** TsHsMsgStdFilter.cpp:100-106, the loop over the rest of the map. *)
  Fixpoint oldest_of (oldest : string * list T) (m : list (string * list T)) : outcome (string * list T) :=
    match m with
    | [] => Ret oldest
    | e :: r =>
        let! a := back (snd e) in
        let! b := back (snd oldest) in
        oldest_of (if a <~ b then e else oldest) r
    end.

  (** TsHsMsgStdFilter.cpp:91-109.  [++oldest] moves past the first element
      before the loop starts. *)
  Definition purge_messages (m : list (string * list T)) : outcome (list (string * list T)) :=
    match m with
    | [] => Ret []
    | _ :: [] => UB
    | _ :: (o :: r) as rest =>
        let! old := oldest_of o (o :: r) in
        Ret (map_erase (fst old) m)
    end.

  (** TsHsMsgStdFilter.cpp:189-192. *)
  Fixpoint make_room (fuel : nat) (history : Z) (m : list (string * list T)) : outcome (list (string * list T)) :=
    if Z.of_nat (List.length m) >=? history then
      match fuel with
      | O => Hang
      | S k => let! m := purge_messages m in make_room k history m
      end
    else Ret m.

  Definition with_map (f : Filter T) (m : list (string * list T)) : Filter T :=
    mkFilter (f_enabled f) (f_types f) (f_processed f) (f_suppressed f) (f_interval f) (f_count f)
      (f_history f) (f_blocking f) m (f_fails f) (f_lock f).

  Definition with_counts (f : Filter T) (processed suppressed : Z) : Filter T :=
    mkFilter (f_enabled f) (f_types f) processed suppressed (f_interval f) (f_count f)
      (f_history f) (f_blocking f) (f_map f) (f_fails f) (f_lock f).

  Definition with_lock (f : Filter T) (b : bool) : Filter T :=
    mkFilter (f_enabled f) (f_types f) (f_processed f) (f_suppressed f) (f_interval f) (f_count f)
      (f_history f) (f_blocking f) (f_map f) (f_fails f) b.

  (** TsHsMsgStdFilter.cpp:164-223, with the mutex held. *)
  Definition should_send_locked (f : Filter T) (r : Req T) : outcome (Filter T * bool) :=
    let! p := int_inc (f_processed f) in
    let f := with_counts f p (f_suppressed f) in
    if is_type_filtered f (r_type r) then
      let! s := int_inc (f_suppressed f) in
      Ret (with_counts f (f_processed f) s, false)
    else
      let k := key_of r in
      match map_find k (f_map f) with
      | None =>
          let! m := make_room (S (List.length (f_map f))) (f_history f) (f_map f) in
          Ret (with_map f (map_insert k [r_time r] m), true)
      | Some times =>
          let times := purge_times times (r_time r -~ ndec (f_interval f) 0) in
          if Z.of_nat (List.length times) <? f_count f then
            Ret (with_map f (map_update k (times ++ [r_time r]) (f_map f)), true)
          else
            let! s := int_inc (f_suppressed f) in
            Ret (with_counts (with_map f (map_update k times (f_map f))) (f_processed f) s, false)
      end.

  (** TsHsMsgStdFilter.cpp:129-226. *)
  Definition should_send (f : Filter T) (r : Req T) : outcome (Filter T * bool) :=
    if negb (f_enabled f) then Ret (f, true)
    else if f_lock f then
      if f_blocking f then Hang
      else
        let! n := int_inc (f_fails f) in
        Ret (mkFilter (f_enabled f) (f_types f) (f_processed f) (f_suppressed f) (f_interval f)
               (f_count f) (f_history f) (f_blocking f) (f_map f) n (f_lock f), false)
    else
      let! (f, b) := should_send_locked (with_lock f true) r in
      Ret (with_lock f false, b).

  (** A sequence of calls, with their answers. *)
  Fixpoint send_all (f : Filter T) (rs : list (Req T)) : outcome (Filter T * list bool) :=
    match rs with
    | [] => Ret (f, [])
    | r :: rest =>
        let! (f, b) := should_send f r in
        let! (f, bs) := send_all f rest in
        Ret (f, b :: bs)
    end.
End Filter.
