(** * What the rate filter should do *)
From Coq Require Import Floats List ZArith Bool Reals String.
From Verif Require Import Num Ord Round MsgQueue MsgFilter.
Import ListNotations.

(** The times at which messages with key [k] were let through. *)
Fixpoint sent {T} (k : string) (rs : list (Req T)) (bs : list bool) : list T :=
  match rs, bs with
  | r :: rs, b :: bs =>
      if String.eqb (key_of r) k && b then r_time r :: sent k rs bs else sent k rs bs
  | _, _ => []
  end.

(** How many of [l] are in the closed window from [a] to [b]. *)
Definition in_window {T} `{NumVal T} (a b : R) (l : list T) : nat :=
  List.length (List.filter (fun t => Rleb a (val t) && Rleb (val t) b) l).

(** The times of the messages with key [k] are finite and never go back. *)
Fixpoint in_time {T} `{NumVal T} (k : string) (last : option T) (rs : list (Req T)) : Prop :=
  match rs with
  | [] => True
  | r :: rs =>
      if String.eqb (key_of r) k then
        nfin (r_time r) = true /\
        match last with Some t => (val t <= val (r_time r))%R | None => True end /\
        in_time k (Some (r_time r)) rs
      else in_time k last rs
  end.

(** The message goes past the type filter. *)
Definition passes {T} (f : Filter T) (r : Req T) : bool := negb (is_type_filtered f (r_type r)).

(** Once a message with key [k] is recorded the filter does not forget it: after
    every call that follows, the key is still in the history. *)
Definition kept {T} `{Num T} (k : string) (f : Filter T) (rs : list (Req T)) : Prop :=
  forall n f' bs, send_all f (firstn n rs) = Ret (f', bs) ->
    (exists r, In r (firstn n rs) /\ key_of r = k /\ passes f r = true) ->
    map_find k (f_map f') <> None.

(** The distinct keys of the messages. *)
Definition keys {T} (rs : list (Req T)) : list string := nodup string_dec (map key_of rs).

(** The filter as it is used: it is on, nobody holds the mutex, and the settings
    are what the setters allow. *)
Definition ready {T} (f : Filter T) : Prop :=
  f_enabled f = true /\ f_lock f = false /\ (1 <= f_count f)%Z /\ (1 <= f_history f)%Z /\
  (1 <= f_interval f <= int_max)%Z.
