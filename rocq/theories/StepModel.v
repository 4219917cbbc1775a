(** Gunns: the solver step (minor-step iteration, convergence, rollback).
    Source: /repo/core/Gunns.cpp.

    Links, nodes and the flow orchestrator are arbitrary functions over an
    arbitrary environment [E]; every theorem quantifies over them.  Not
    modelled: the GPU solvers (NO_GPU is assumed), wall-clock timing, text
    messages, the debug copies kept for display, the minor step log (modelled
    separately), and the uninitialised-network exception of checkStepInputs. *)
From Coq Require Import List Arith Bool ZArith.
From Verif Require Import Num Loops Ldu Assembly Islands IslandSolve.
Import ListNotations.

(** Gunns.hh:112-127; GunnsBasicLink::SolutionResult. *)
Inductive smode := NORMAL | DUMMY | SLAVE.
Inductive imode := OFF | FIND | SOLVE.
Inductive decision := CONFIRM | DELAY | REJECT.

Definition is_normal (m : smode) := match m with NORMAL => true | _ => false end.
Definition is_delay (d : decision) := match d with DELAY => true | _ => false end.
Definition is_reject (d : decision) := match d with REJECT => true | _ => false end.
Definition is_confirm (d : decision) := match d with CONFIRM => true | _ => false end.

Section Model.
  Context {T : Type} `{NT : Num T} {E : Type}.

  (** Everything outside the solver object: [w_pot] are the node potentials
      (GunnsBasicNode::mPotential, ground is index n), [w_lpot l p] the links'
      potential vectors, [w_req]/[w_cap] the nodes' network capacitance request
      and value, [w_ndp] the per-node delta-potential arrays, [w_env] the rest. *)
  Record world := mkworld {
    w_env : E;
    w_pot : nat -> T;
    w_lpot : nat -> nat -> T;
    w_req : nat -> T;
    w_cap : nat -> T;
    w_ndp : nat -> nat -> T
  }.
  Definition set_pot (v : nat -> T) (w : world) : world :=
    mkworld (w_env w) v (w_lpot w) (w_req w) (w_cap w) (w_ndp w).
  Definition set_lpot (v : nat -> nat -> T) (w : world) : world :=
    mkworld (w_env w) (w_pot w) v (w_req w) (w_cap w) (w_ndp w).
  Definition set_req (v : nat -> T) (w : world) : world :=
    mkworld (w_env w) (w_pot w) (w_lpot w) v (w_cap w) (w_ndp w).
  Definition set_cap (v : nat -> T) (w : world) : world :=
    mkworld (w_env w) (w_pot w) (w_lpot w) (w_req w) v (w_ndp w).
  Definition set_ndp (v : nat -> nat -> T) (w : world) : world :=
    mkworld (w_env w) (w_pot w) (w_lpot w) (w_req w) (w_cap w) v.

  (** The network: sizes, what links show the solver, and their virtual
      methods.  Node maps are natural numbers (GunnsBasicLink only accepts
      0..n, see C23); [n] is ground.  [isNonLinear] is a constant of the link. *)
  Record net := mknet {
    nn : nat;                                   (* mNetworkSize *)
    nl : nat;                                   (* mNumLinks *)
    l_nonlin : nat -> bool;                     (* isNonLinear *)
    l_ports : nat -> nat;                       (* mLinkNumPorts *)
    l_nodes : nat -> E -> nat -> nat;           (* mLinkNodeMaps *)
    l_msize : nat -> E -> nat;                  (* mLinkAdmittanceMaps->mSize *)
    l_map : nat -> E -> nat -> Z;               (* ->mMap *)
    l_adm : nat -> E -> nat -> T;               (* mLinkAdmittanceMatrices *)
    l_src : nat -> E -> nat -> T;               (* mLinkSourceVectors *)
    l_over : nat -> E -> nat -> bool;           (* mLinkOverrideVectors *)
    l_step : nat -> T -> world -> world;
    l_minor : nat -> T -> nat -> world -> world;
    l_need : nat -> world -> bool * world;      (* needAdmittanceUpdate *)
    l_confirm : nat -> nat -> nat -> world -> decision * world;
    l_reset : nat -> nat -> nat -> world -> bool * world;
    l_in : nat -> world -> world;               (* processInputs *)
    l_out : nat -> world -> world;              (* processOutputs *)
    n_flows : nat -> world -> world;            (* node resetFlows *)
    o_update : T -> world -> world;             (* flow orchestrator update *)
    minor_limit : nat;                          (* mMinorStepLimit *)
    decomp_limit : nat;                         (* mDecompositionLimit *)
    tol : T;                                    (* mConvergenceTolerance *)
    sor : (nat -> T) -> mat T -> (nat -> T) -> Z * (nat -> T)  (* Sor::solve *)
  }.

  (** What the user may change between steps. *)
  Record input := mkinput {
    i_mode : smode;              (* mSolverMode *)
    i_island : imode;            (* mIslandMode *)
    i_pause : bool;              (* PAUSE == mRunMode *)
    i_sor : bool;                (* mSorActive *)
    i_worst : bool;              (* mWorstCaseTiming *)
    i_debug : bool;              (* mDebugDesiredStep != 0 *)
    i_slave : nat -> T;          (* mSlavePotentialVector *)
    i_dt : T                     (* timeStep *)
  }.

  (** Ghost record of calls the solver makes, in order. *)
  Inductive call :=
  | CIn (l : nat) | CFlows (node : nat)
  | CStep (l : nat) | CMinor (l k : nat) | CNeed (l : nat)
  | CDecomp | CSolve (M : mat T) (e : E)
  | CConfirm (l c k : nat) (answer : decision) | CReset (l c k : nat)
  | CUpdate | COut (l : nat).

  (** Ghost record of one minor step of a non-linear network in NORMAL mode:
      [r_P] the potentials judged, [r_ref] those they are compared with,
      [r_dec] the network's decision, [r_after] the potentials left behind,
      [r_world] the world when they were last output to nodes and links (for a
      rejected step, after the roll-back and before resetLastMinorStep calls). *)
  Record mrec := mkrec {
    r_k : nat; r_P : nat -> T; r_ref : nat -> T; r_conv : nat; r_dec : decision; r_after : nat -> T;
    r_world : world
  }.

  Record state := mkstate {
    sA : mat T (* mAdmittanceMatrix, row-major *);
    sSrc : nat -> T (* mSourceVector *);
    sP : nat -> T (* mPotentialVector *);
    sMin : nat -> T (* mMinorPotentialVector *);
    sMaj : nat -> T (* mMajorPotentialVector *);
    sRebuild : bool (* mRebuild *);
    sIvec : nat -> list nat (* mIslandVectors *);
    sNconv : nat -> T (* mNodesConvergence *);
    sLconv : nat -> decision (* mLinksConvergence *);
    sLastMinor : nat (* mLastMinorStep *);
    sLastDecomp : nat (* mLastDecomposition *);
    cMajor : nat (* mMajorStepCount *);
    cMinor : nat (* mMinorStepCount *);
    cDecomp : nat (* mDecompositionCount *);
    cMaxMinor : nat (* mMaxMinorStepCount *);
    cMaxDecomp : nat (* mMaxDecompositionCount *);
    cFail : nat (* mConvergenceFailCount *);
    cReset : nat (* mLinkResetStepFailCount *);
    cSor : nat (* mSorFailCount *);
    sWorld : world (* links, nodes and everything they can reach *);
    sCalls : list call (* ghost: calls made so far *);
    sRecs : list mrec (* ghost: minor steps of the current major step *)
  }.
  Definition set_sA (v : mat T) (s : state) : state :=
    mkstate v (sSrc s) (sP s) (sMin s) (sMaj s) (sRebuild s) (sIvec s) (sNconv s) (sLconv s) (sLastMinor s) (sLastDecomp s) (cMajor s) (cMinor s) (cDecomp s) (cMaxMinor s) (cMaxDecomp s) (cFail s) (cReset s) (cSor s) (sWorld s) (sCalls s) (sRecs s).
  Definition set_sSrc (v : nat -> T) (s : state) : state :=
    mkstate (sA s) v (sP s) (sMin s) (sMaj s) (sRebuild s) (sIvec s) (sNconv s) (sLconv s) (sLastMinor s) (sLastDecomp s) (cMajor s) (cMinor s) (cDecomp s) (cMaxMinor s) (cMaxDecomp s) (cFail s) (cReset s) (cSor s) (sWorld s) (sCalls s) (sRecs s).
  Definition set_sP (v : nat -> T) (s : state) : state :=
    mkstate (sA s) (sSrc s) v (sMin s) (sMaj s) (sRebuild s) (sIvec s) (sNconv s) (sLconv s) (sLastMinor s) (sLastDecomp s) (cMajor s) (cMinor s) (cDecomp s) (cMaxMinor s) (cMaxDecomp s) (cFail s) (cReset s) (cSor s) (sWorld s) (sCalls s) (sRecs s).
  Definition set_sMin (v : nat -> T) (s : state) : state :=
    mkstate (sA s) (sSrc s) (sP s) v (sMaj s) (sRebuild s) (sIvec s) (sNconv s) (sLconv s) (sLastMinor s) (sLastDecomp s) (cMajor s) (cMinor s) (cDecomp s) (cMaxMinor s) (cMaxDecomp s) (cFail s) (cReset s) (cSor s) (sWorld s) (sCalls s) (sRecs s).
  Definition set_sMaj (v : nat -> T) (s : state) : state :=
    mkstate (sA s) (sSrc s) (sP s) (sMin s) v (sRebuild s) (sIvec s) (sNconv s) (sLconv s) (sLastMinor s) (sLastDecomp s) (cMajor s) (cMinor s) (cDecomp s) (cMaxMinor s) (cMaxDecomp s) (cFail s) (cReset s) (cSor s) (sWorld s) (sCalls s) (sRecs s).
  Definition set_sRebuild (v : bool) (s : state) : state :=
    mkstate (sA s) (sSrc s) (sP s) (sMin s) (sMaj s) v (sIvec s) (sNconv s) (sLconv s) (sLastMinor s) (sLastDecomp s) (cMajor s) (cMinor s) (cDecomp s) (cMaxMinor s) (cMaxDecomp s) (cFail s) (cReset s) (cSor s) (sWorld s) (sCalls s) (sRecs s).
  Definition set_sIvec (v : nat -> list nat) (s : state) : state :=
    mkstate (sA s) (sSrc s) (sP s) (sMin s) (sMaj s) (sRebuild s) v (sNconv s) (sLconv s) (sLastMinor s) (sLastDecomp s) (cMajor s) (cMinor s) (cDecomp s) (cMaxMinor s) (cMaxDecomp s) (cFail s) (cReset s) (cSor s) (sWorld s) (sCalls s) (sRecs s).
  Definition set_sNconv (v : nat -> T) (s : state) : state :=
    mkstate (sA s) (sSrc s) (sP s) (sMin s) (sMaj s) (sRebuild s) (sIvec s) v (sLconv s) (sLastMinor s) (sLastDecomp s) (cMajor s) (cMinor s) (cDecomp s) (cMaxMinor s) (cMaxDecomp s) (cFail s) (cReset s) (cSor s) (sWorld s) (sCalls s) (sRecs s).
  Definition set_sLconv (v : nat -> decision) (s : state) : state :=
    mkstate (sA s) (sSrc s) (sP s) (sMin s) (sMaj s) (sRebuild s) (sIvec s) (sNconv s) v (sLastMinor s) (sLastDecomp s) (cMajor s) (cMinor s) (cDecomp s) (cMaxMinor s) (cMaxDecomp s) (cFail s) (cReset s) (cSor s) (sWorld s) (sCalls s) (sRecs s).
  Definition set_sLastMinor (v : nat) (s : state) : state :=
    mkstate (sA s) (sSrc s) (sP s) (sMin s) (sMaj s) (sRebuild s) (sIvec s) (sNconv s) (sLconv s) v (sLastDecomp s) (cMajor s) (cMinor s) (cDecomp s) (cMaxMinor s) (cMaxDecomp s) (cFail s) (cReset s) (cSor s) (sWorld s) (sCalls s) (sRecs s).
  Definition set_sLastDecomp (v : nat) (s : state) : state :=
    mkstate (sA s) (sSrc s) (sP s) (sMin s) (sMaj s) (sRebuild s) (sIvec s) (sNconv s) (sLconv s) (sLastMinor s) v (cMajor s) (cMinor s) (cDecomp s) (cMaxMinor s) (cMaxDecomp s) (cFail s) (cReset s) (cSor s) (sWorld s) (sCalls s) (sRecs s).
  Definition set_cMajor (v : nat) (s : state) : state :=
    mkstate (sA s) (sSrc s) (sP s) (sMin s) (sMaj s) (sRebuild s) (sIvec s) (sNconv s) (sLconv s) (sLastMinor s) (sLastDecomp s) v (cMinor s) (cDecomp s) (cMaxMinor s) (cMaxDecomp s) (cFail s) (cReset s) (cSor s) (sWorld s) (sCalls s) (sRecs s).
  Definition set_cMinor (v : nat) (s : state) : state :=
    mkstate (sA s) (sSrc s) (sP s) (sMin s) (sMaj s) (sRebuild s) (sIvec s) (sNconv s) (sLconv s) (sLastMinor s) (sLastDecomp s) (cMajor s) v (cDecomp s) (cMaxMinor s) (cMaxDecomp s) (cFail s) (cReset s) (cSor s) (sWorld s) (sCalls s) (sRecs s).
  Definition set_cDecomp (v : nat) (s : state) : state :=
    mkstate (sA s) (sSrc s) (sP s) (sMin s) (sMaj s) (sRebuild s) (sIvec s) (sNconv s) (sLconv s) (sLastMinor s) (sLastDecomp s) (cMajor s) (cMinor s) v (cMaxMinor s) (cMaxDecomp s) (cFail s) (cReset s) (cSor s) (sWorld s) (sCalls s) (sRecs s).
  Definition set_cMaxMinor (v : nat) (s : state) : state :=
    mkstate (sA s) (sSrc s) (sP s) (sMin s) (sMaj s) (sRebuild s) (sIvec s) (sNconv s) (sLconv s) (sLastMinor s) (sLastDecomp s) (cMajor s) (cMinor s) (cDecomp s) v (cMaxDecomp s) (cFail s) (cReset s) (cSor s) (sWorld s) (sCalls s) (sRecs s).
  Definition set_cMaxDecomp (v : nat) (s : state) : state :=
    mkstate (sA s) (sSrc s) (sP s) (sMin s) (sMaj s) (sRebuild s) (sIvec s) (sNconv s) (sLconv s) (sLastMinor s) (sLastDecomp s) (cMajor s) (cMinor s) (cDecomp s) (cMaxMinor s) v (cFail s) (cReset s) (cSor s) (sWorld s) (sCalls s) (sRecs s).
  Definition set_cFail (v : nat) (s : state) : state :=
    mkstate (sA s) (sSrc s) (sP s) (sMin s) (sMaj s) (sRebuild s) (sIvec s) (sNconv s) (sLconv s) (sLastMinor s) (sLastDecomp s) (cMajor s) (cMinor s) (cDecomp s) (cMaxMinor s) (cMaxDecomp s) v (cReset s) (cSor s) (sWorld s) (sCalls s) (sRecs s).
  Definition set_cReset (v : nat) (s : state) : state :=
    mkstate (sA s) (sSrc s) (sP s) (sMin s) (sMaj s) (sRebuild s) (sIvec s) (sNconv s) (sLconv s) (sLastMinor s) (sLastDecomp s) (cMajor s) (cMinor s) (cDecomp s) (cMaxMinor s) (cMaxDecomp s) (cFail s) v (cSor s) (sWorld s) (sCalls s) (sRecs s).
  Definition set_cSor (v : nat) (s : state) : state :=
    mkstate (sA s) (sSrc s) (sP s) (sMin s) (sMaj s) (sRebuild s) (sIvec s) (sNconv s) (sLconv s) (sLastMinor s) (sLastDecomp s) (cMajor s) (cMinor s) (cDecomp s) (cMaxMinor s) (cMaxDecomp s) (cFail s) (cReset s) v (sWorld s) (sCalls s) (sRecs s).
  Definition set_sWorld (v : world) (s : state) : state :=
    mkstate (sA s) (sSrc s) (sP s) (sMin s) (sMaj s) (sRebuild s) (sIvec s) (sNconv s) (sLconv s) (sLastMinor s) (sLastDecomp s) (cMajor s) (cMinor s) (cDecomp s) (cMaxMinor s) (cMaxDecomp s) (cFail s) (cReset s) (cSor s) v (sCalls s) (sRecs s).
  Definition set_sCalls (v : list call) (s : state) : state :=
    mkstate (sA s) (sSrc s) (sP s) (sMin s) (sMaj s) (sRebuild s) (sIvec s) (sNconv s) (sLconv s) (sLastMinor s) (sLastDecomp s) (cMajor s) (cMinor s) (cDecomp s) (cMaxMinor s) (cMaxDecomp s) (cFail s) (cReset s) (cSor s) (sWorld s) v (sRecs s).
  Definition set_sRecs (v : list mrec) (s : state) : state :=
    mkstate (sA s) (sSrc s) (sP s) (sMin s) (sMaj s) (sRebuild s) (sIvec s) (sNconv s) (sLconv s) (sLastMinor s) (sLastDecomp s) (cMajor s) (cMinor s) (cDecomp s) (cMaxMinor s) (cMaxDecomp s) (cFail s) (cReset s) (cSor s) (sWorld s) (sCalls s) v.

  Definition tell (c : call) (s : state) : state := set_sCalls (sCalls s ++ [c]) s.
  Definition on_world (f : world -> world) (s : state) : state := set_sWorld (f (sWorld s)) s.

  Variable N : net.
  Local Notation n := (nn N).

  (** Gunns.cpp:411-414: the network is linear unless a link is non-linear. *)
  Definition linear : bool := forallb (fun l => negb (l_nonlin N l)) (seq 0 (nl N)).

  (** The links as the assembly functions see them. *)
  Definition show (e : E) (l : nat) : link T :=
    mklink T (l_msize N l e) (l_map N l e) (l_adm N l e)
             (l_ports N l) (fun p => Z.of_nat (l_nodes N l e p)) (l_src N l e).
  Definition links_of (e : E) : list (link T) := map (show e) (seq 0 (nl N)).

  (** Row-major array from the row, column form. *)
  Definition unview (A : mat T) : Z -> T := fun z => A (Z.to_nat z / n) (Z.to_nat z mod n).

  (** Copy of the first [n] entries, Gunns.cpp:1685-1725. *)
  Definition copy_vec (from to : nat -> T) : nat -> T :=
    loop (fun i v => updv v i (from i)) 0 n to.

  Definition reset_to_minor (s : state) : state := set_sP (copy_vec (sMin s) (sP s)) s.
  Definition save_minor (s : state) : state := set_sMin (copy_vec (sP s) (sMin s)) s.
  Definition reset_to_major (s : state) : state := set_sP (copy_vec (sMaj s) (sP s)) s.
  Definition save_major (s : state) : state := set_sMaj (copy_vec (sP s) (sMaj s)) s.

  (** Gunns.cpp:1229-1246 and 1605-1626 as called at 967-968. *)
  Definition rebuild_matrix (im : imode) (s : state) : state :=
    let A1 := view n (build_admittance n (links_of (w_env (sWorld s))) (unview (sA s))) in
    let s1 := match im with
              | OFF => s
              | _ => set_sIvec (island_vectors n (island_labels n (nonzero A1) (fun i => i)) (sIvec s)) s
              end in
    set_sA (condition n A1) s1.

  (** Gunns.cpp:1342-1359; node numbers are non-negative, so [None] does not
      occur and is mapped to "unchanged". *)
  Definition rebuild_source (s : state) : state :=
    match build_source n (links_of (w_env (sWorld s))) (fun z => sSrc s (Z.to_nat z)) with
    | Some w => set_sSrc (fun i => w (Z.of_nat i)) s
    | None => s
    end.

  (** Outcomes of buildAndSolveSystem: [Limit] is TsOutOfBoundsException,
      [Numeric] is TsNumericalException. *)
  Inductive outcome := Fine (s : state) | Limit (s : state) | Numeric (s : state).

  (** Gunns.cpp:1007-1038 and handleDecompose 1445. *)
  Definition decompose_step (im : imode) (s : state) : outcome :=
    match im with
    | SOLVE =>
        match decompose_islands n (sIvec s) (sA s) with
        | inl A => Fine (set_sA A s)
        | inr (_, _, A) => Numeric (set_sA A s)
        end
    | _ =>
        match decompose n (sA s) with
        | inl A => Fine (set_sA A s)
        | inr (_, A) => Numeric (set_sA A s)
        end
    end.

  (** Gunns.cpp:1422-1427 (NO_GPU) and handleSolve. *)
  Definition solve_step (s : state) : outcome :=
    let s1 := tell (CSolve (sA s) (w_env (sWorld s))) s in
    match solve (sA s) (sSrc s) (sP s) n with
    | inl x => Fine (set_sP x s1)
    | inr (_, x) => Numeric (set_sP x s1)
    end.

  Definition bind (o : outcome) (f : state -> outcome) : outcome :=
    match o with Fine s => f s | _ => o end.

  (** Gunns.cpp:1488-1495. *)
  Definition clean (s : state) : state :=
    set_sP (loop (fun i v => if nabs (v i) <~ neps then updv v i n0 else v) 0 n (sP s)) s.

  (** Gunns.cpp:1505-1530, one node. *)
  Definition perturb_node (i : nat) (o : outcome) : outcome :=
    bind o (fun s =>
      let flux := w_req (sWorld s) i in
      if neps <~ flux then
        let saved := sSrc s i in
        bind (solve_step (set_sSrc (updv (sSrc s) i (sSrc s i +~ flux)) s)) (fun s2 =>
          let s3 := on_world (fun w => set_cap (updv (w_cap w) i (sP s2 i)) w) s2 in
          let s4 := set_sSrc (updv (sSrc s3) i saved) s3 in
          Fine (on_world (fun w => set_ndp
                  (fun a => if Nat.eqb a i then copy_vec (sP s4) (w_ndp w a) else w_ndp w a) w) s4))
      else Fine (on_world (fun w => set_cap (updv (w_cap w) i n0) w) s)).
  Definition perturb (s : state) : outcome := loop perturb_node 0 n (Fine s).

  (** Gunns.cpp:1541-1566, one node. *)
  Definition netcap_node (dt : T) (i : nat) (s : state) : state :=
    let flux := w_req (sWorld s) i in
    if neps <~ flux then
      let d := nabs (w_cap (sWorld s) i -~ sP s i) in
      let c := if neps <~ d then dt *~ flux /~ d else n0 in
      on_world (fun w =>
        set_req (updv (w_req w) i n0)
          (set_ndp (fun a => if Nat.eqb a i
                             then loop (fun j v => updv v j (v j -~ sP s j)) 0 n (w_ndp w a)
                             else w_ndp w a)
             (set_cap (updv (w_cap w) i c) w))) s
    else s.
  Definition netcap (dt : T) (s : state) : state := loop (netcap_node dt) 0 n s.

  (** Gunns.cpp:960-1058. *)
  Definition build_and_solve (u : input) (s0 : state) : outcome :=
    let s1 := rebuild_source s0 in
    let need := sRebuild s1 || i_sor u || i_debug u in
    let s2 := if need then set_sRebuild false (rebuild_matrix (i_island u) s1) else s1 in
    let '(sor_last, s3) :=
      if i_sor u && is_normal (i_mode u) then
        let '(it, x) := sor N (sP s2) (sA s2) (sSrc s2) in
        if (it <? 0)%Z
        then (it, set_cSor (cSor s2 + 1) (reset_to_minor (set_sP x s2)))
        else (it, set_sP x s2)
      else ((-1)%Z, s2) in
    if (sor_last <? 0)%Z then
      bind (if need && is_normal (i_mode u) then
              if Nat.ltb (sLastDecomp s3) (decomp_limit N) then
                decompose_step (i_island u)
                  (tell CDecomp (set_cDecomp (cDecomp s3 + 1) (set_sLastDecomp (sLastDecomp s3 + 1) s3)))
              else Limit s3
            else Fine s3)
           (fun s4 =>
              if is_normal (i_mode u) then
                bind (perturb s4) (fun s5 =>
                bind (solve_step s5) (fun s6 => Fine (netcap (i_dt u) (clean s6))))
              else Fine s4)
    else Fine s3.

  (** Gunns.cpp:1571-1598. *)
  Definition override_link (l : nat) (s : state) : state :=
    loop (fun p s =>
            let e := w_env (sWorld s) in
            let node := l_nodes N l e p in
            if l_over N l e p && Nat.ltb node n
            then set_sP (updv (sP s) node (w_lpot (sWorld s) l p)) s
            else s) 0 (l_ports N l) s.
  Definition override (u : input) (s : state) : state :=
    match i_mode u with
    | SLAVE => set_sMin (copy_vec (i_slave u) (sMin s)) (set_sP (copy_vec (i_slave u) (sP s)) s)
    | NORMAL => loop override_link 0 (nl N) s
    | DUMMY => s
    end.

  (** Gunns.cpp:1634-1658. *)
  Definition output_nodes (P : nat -> T) (w : world) : world :=
    let w1 := loop (fun i w => set_pot (updv (w_pot w) i (P i)) w) 0 n w in
    set_pot (updv (w_pot w1) n n0) w1.
  Definition output_link (P : nat -> T) (l : nat) (w : world) : world :=
    loop (fun p w =>
            let node := l_nodes N l (w_env w) p in
            let v := if Nat.ltb node n then P node else n0 in
            set_lpot (upd (w_lpot w) l p v) w) 0 (l_ports N l) w.
  Definition output (u : input) (s : state) : state :=
    match i_mode u with
    | DUMMY => s
    | _ => on_world (fun w => loop (output_link (sP s)) 0 (nl N) (output_nodes (sP s) w)) s
    end.

  (** Gunns.cpp:858-874: step or minor-step every link. *)
  Definition step_link (dt : T) (k : nat) (l : nat) (s : state) : state :=
    let s1 := if Nat.eqb k 1 then tell (CStep l) (on_world (l_step N l dt) s)
              else if l_nonlin N l then tell (CMinor l k) (on_world (l_minor N l dt k) s)
              else s in
    let '(b, w) := l_need N l (sWorld s1) in
    let s2 := tell (CNeed l) (set_sWorld w s1) in
    if b then set_sRebuild true s2 else s2.
  Definition step_links (dt : T) (k : nat) (s : state) : state := loop (step_link dt k) 0 (nl N) s.

  (** Gunns.cpp:1148-1166 (debug node omitted). *)
  Definition check_convergence (s : state) : bool * state :=
    let '(last, c) :=
      loop (fun i (a : option nat * (nat -> T)) =>
              let d := nabs (sMin s i -~ sP s i) in
              ((if tol N <~ d then Some i else fst a), updv (snd a) i d))
           0 n (None, sNconv s) in
    (match last with None => true | Some _ => false end, set_sNconv c s).

  (** Gunns.cpp:1180-1218, one link; [a] is the result so far. *)
  Definition confirm_link (c k : nat) (l : nat) (a : decision * state) : decision * state :=
    if l_nonlin N l then
      let '(d0, w) := l_confirm N l c k (sWorld (snd a)) in
      let d := if Nat.eqb 0 c && is_delay d0 then CONFIRM else d0 in
      let r := if is_reject d then REJECT
               else if is_delay d && negb (is_reject (fst a)) then DELAY
               else fst a in
      let s1 := tell (CConfirm l c k d0) (set_sWorld w (snd a)) in
      (r, set_sLconv (fun x => if Nat.eqb x l then d else sLconv s1 x) s1)
    else a.
  Definition confirm (c k : nat) (s : state) : decision * state :=
    loop (confirm_link c k) 0 (nl N) (CONFIRM, s).

  (** Gunns.cpp:1670-1680. *)
  Definition reset_link (c k : nat) (l : nat) (s : state) : state :=
    if l_nonlin N l then
      let '(ok, w) := l_reset N l c k (sWorld s) in
      let s1 := tell (CReset l c k) (set_sWorld w s) in
      if ok then s1 else set_cReset (cReset s1 + 1) s1
    else s.
  Definition reset_links (c k : nat) (s : state) : state := loop (reset_link c k) 0 (nl N) s.

  (** Local variables of iterateMinorSteps. *)
  Record local := mklocal { v_res : decision; v_conv : nat; v_net : bool }.

  Inductive flow := Go (s : state) (v : local) | Stop (s : state) (v : local) | Throw (s : state).

  (** Gunns.cpp:901-937, after the solution, in a non-linear network in NORMAL mode. *)
  Definition judge (u : input) (k : nat) (s : state) (v : local) : flow :=
    let '(ok, s1) := if is_delay (v_res v) then (true, s) else check_convergence s in
    let c := if ok then v_conv v + 1 else v_conv v in
    let '(d, s2) := confirm c k s1 in
    let rec := mkrec k (sP s) (sMin s) c d in
    if is_reject d then
      let so := output u (reset_to_minor s2) in
      let s3 := reset_links c k so in
      Go (set_sRecs (sRecs s3 ++ [rec (sP s3) (sWorld so)]) s3) (mklocal d 0 (v_net v))
    else
      let s3 := save_minor s2 in
      let s4 := set_sRecs (sRecs s3 ++ [rec (sP s3) (sWorld s)]) s3 in
      if is_confirm d && Nat.ltb 0 c then
        if negb (i_worst u) || Nat.leb (decomp_limit N) (sLastDecomp s4)
        then Stop s4 (mklocal d c true)
        else Go s4 (mklocal d c true)
      else Go s4 (mklocal d c (v_net v)).

  (** Gunns.cpp:843-945, body of the minor step loop. *)
  Definition minor_body (u : input) (k : nat) (s : state) (v : local) : flow :=
    let s1 := set_cMinor (cMinor s + 1) (set_sLastMinor k s) in
    let s2 := if Nat.ltb (cMaxMinor s1) k then set_cMaxMinor k s1 else s1 in
    let solved :=
      if is_delay (v_res v) then Fine s2
      else
        let s3 := step_links (i_dt u) k s2 in
        let s4 := if i_worst u then set_sRebuild true s3 else s3 in
        bind (build_and_solve u s4) (fun s5 => Fine (output u (override u s5))) in
    match solved with
    | Limit s5 => Stop s5 (mklocal (v_res v) (v_conv v) false)
    | Numeric s5 => Throw s5
    | Fine s5 => if negb linear && is_normal (i_mode u) then judge u k s5 v else Go s5 v
    end.

  (** Gunns.cpp:843: the loop runs [cnt] more times, next minor step is [k]. *)
  Fixpoint minor_loop (u : input) (cnt k : nat) (s : state) (v : local) : flow :=
    match cnt with
    | O => Stop (set_sLastMinor k s) v
    | S c => match minor_body u k s v with
             | Go s' v' => minor_loop u c (S k) s' v'
             | r => r
             end
    end.

  (** Gunns.cpp:821-948. *)
  Definition iterate (u : input) (s : state) : flow :=
    let one := linear || negb (is_normal (i_mode u)) in
    let limit := if one then 1 else minor_limit N in
    minor_loop u limit 1 (set_sRecs [] (set_sLastDecomp 0 s)) (mklocal CONFIRM 0 one).

  (** Result of step: [Done b] returned, with [b] = isConverged; [Thrown] is
      TsNumericalException; [Paused] returned at once. *)
  Inductive stepres := Done (b : bool) | Thrown | Paused.

  (** Gunns.cpp:736-806. *)
  Definition step (u : input) (s : state) : stepres * state :=
    if i_pause u then (Paused, s) else
    let s1 := set_cMajor (cMajor s + 1) s in
    let s2 := loop (fun l s => tell (CIn l) (on_world (l_in N l) s)) 0 (nl N) s1 in
    let s3 := loop (fun i s => tell (CFlows i) (on_world (n_flows N i) s)) 0 (n + 1) s2 in
    match iterate u s3 with
    | Throw s4 => (Thrown, s4)
    | Go s4 v | Stop s4 v =>
        let s5 := if Nat.ltb (cMaxDecomp s4) (sLastDecomp s4)
                  then set_cMaxDecomp (sLastDecomp s4) s4 else s4 in
        let s6 :=
          if v_net v then
            let s := tell CUpdate (on_world (o_update N (i_dt u)) s5) in
            loop (fun m s => let l := nl N - 1 - m in tell (COut l) (on_world (l_out N l) s)) 0 (nl N) s
          else output u (override u (reset_to_major (set_cFail (cFail s5 + 1) s5))) in
        (Done (v_net v), set_sRebuild false (save_major s6))
    end.

  (** Gunns.cpp:661-720.  [n_restart], [n_content] (resetContentState, ground
      only) and [l_restart] are the callbacks; an exception from one of them is
      not modelled, nor are the mode histories. *)
  Definition restart (n_restart n_content l_restart : nat -> world -> world) (s : state) : state :=
    let s1 := set_cFail 0 (set_cReset 0 (set_cMaxMinor 0 (set_sLastMinor 0
                (set_cMaxDecomp 0 (set_sLastDecomp 0 (set_sRebuild true s)))))) in
    let s2 := loop (fun i s => on_world (n_restart i) s) 0 n s1 in
    let s3 := on_world (fun w => set_pot (updv (w_pot w) n n0) w) (on_world (n_content n) s2) in
    loop (fun l s => on_world (l_restart l) s) 0 (nl N) s3.

  (** A history of steps. *)
  Definition run (us : list input) (s : state) : state := fold_left (fun s u => snd (step u s)) us s.
End Model.

Arguments state : clear implicits.
Arguments world : clear implicits.
Arguments net : clear implicits.
Arguments input : clear implicits.
Arguments call : clear implicits.
