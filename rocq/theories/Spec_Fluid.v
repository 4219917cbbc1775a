(** What the state of a fluid mixture should satisfy, in exact arithmetic. *)
From Coq Require Import Reals List.
From Verif Require Import Num Fluid.
Import ListNotations.
Open Scope R_scope.

Definition rsum (l : list R) : R := fold_right Rplus 0 l.
Definition total (g : const R -> R) (f : fluid R) : R := rsum (map g (f_cs f)).

(** FLT_EPSILON. *)
Definition fltR : R := / 8388608.

(** Molecular weights of real substances: hydrogen 2, the heaviest fluid 760. *)
Definition real_types (f : fluid R) : Prop :=
  Forall (fun c => 1 <= p_mw (c_pr c) <= 1000) (f_cs f).

(** The composition of a mixture is consistent: each constituent has its fraction of
    the mass, of the moles and of the flow; mass and moles are related by the
    molecular weights of the constituent and of the mixture; the fractions are not
    negative and add up to one. *)
Record balanced (f : fluid R) : Prop := {
  bal_mass : forall c, In c (f_cs f) -> c_mass c = c_x c * f_mass f;
  bal_mole : forall c, In c (f_cs f) -> c_mole c = c_y c * f_mole f;
  bal_weight : forall c, In c (f_cs f) -> c_mass c = c_mole c * p_mw (c_pr c);
  bal_flow : forall c, In c (f_cs f) -> c_w c = c_x c * f_w f;
  bal_pos : forall c, In c (f_cs f) -> 0 <= c_x c /\ 0 <= c_y c;
  bal_frac : forall c, In c (f_cs f) -> c_x c * f_mw f = c_y c * p_mw (c_pr c);
  bal_total : f_mass f = f_mole f * f_mw f;
  bal_x : Rabs (1 - total (@c_x R) f) <= fltR;
  bal_y : Rabs (1 - total (@c_y R) f) <= fltR
}.

(** Constituents are either absent or more than a trace. *)
Definition no_traces (f : fluid R) : Prop :=
  Forall (fun c => (c_x c = 0 /\ c_y c = 0) \/ (Reps < Rabs (c_x c) /\ Reps < Rabs (c_y c))) (f_cs f).
(** The temperature is in the range of the specific heat fits of what is there. *)
Definition in_range (f : fluid R) (t : R) : Prop :=
  Forall (fun c => Reps < Rabs (c_x c) -> p_cpmin (c_pr c) <= t <= p_cpmax (c_pr c)) (f_cs f).
(** The specific heat of the mixture is [heat_a + heat_b * t]. *)
Definition heat_a (f : fluid R) : R :=
  total (fun c => if Rlt_dec Reps (Rabs (c_x c)) then c_x c * p_cpA (c_pr c) else 0) f.
Definition heat_b (f : fluid R) : R :=
  total (fun c => if Rlt_dec Reps (Rabs (c_x c)) then c_x c * p_cpB (c_pr c) else 0) f.

(** A stream: the constituents have their fractions of the flow; the fractions are not
    negative and, unless nothing flows, add up to one. *)
Record stream (f : fluid R) : Prop := {
  str_w : 0 <= f_w f;
  str_flow : forall c, In c (f_cs f) -> c_w c = c_x c * f_w f;
  str_pos : forall c, In c (f_cs f) -> 0 <= c_x c;
  str_x : f_w f = 0 \/ Rabs (1 - total (@c_x R) f) <= fltR
}.
(** What [src] contributes to a stream: a composition of which no constituent is
    present in less than a trace of the flow. *)
Record source (src : fluid R) (flow : R) : Prop := {
  src_x : Rabs (1 - total (@c_x R) src) <= fltR;
  src_c : forall c, In c (f_cs src) -> 0 <= c_x c /\
            ((c_x c = 0 /\ c_w c = 0) \/ Reps * Reps <= flow * c_x c)
}.
(** The species flows, in the order of the constituents. *)
Definition species_flow (f : fluid R) : list R := map c_w (f_cs f).
Definition species_of (src : fluid R) (flow : R) : list R := map (fun c => flow * c_x c) (f_cs src).
Definition padd (l m : list R) : list R := map (fun q => fst q + snd q) (combine l m).
