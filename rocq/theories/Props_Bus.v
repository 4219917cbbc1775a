(** C26-C31, C56: distributed 2-way bus. *)
From Coq Require Import Floats Reals Lra Lia List Arith Bool ZArith.
From Verif Require Import Num Loops Bus Spec_Bus BusFacts BusRoles.
Import ListNotations.

(** ** C26: roles *)

(** A connected pair with constant capacitances, no forced roles, one master,
    counters that make sense, and valid packets up to frame [H]. *)
Record bus_pair (ea eb : nat -> fenv (T := R)) (lab lba : nat) (junka junkb : nat -> packet (T := R))
       (a b : nat -> fbus (T := R)) (ca cb : R) (H : nat) : Prop := {
  bp_trace : pair_trace (fun k rx s => fframe (ea k) rx s) (fun k rx s => fframe (eb k) rx s)
               b_out b_out lab lba junka junkb a b;
  bp_delay : (1 <= lab + lba)%nat;
  bp_caps : (0 <= ca)%R /\ (0 <= cb)%R;
  bp_env : forall k, e_cap (ea k) = ca /\ e_cap (eb k) = cb;
  bp_cap0 : p_cap (b_out (a O)) = ca /\ p_cap (b_out (b O)) = cb;
  bp_force : b_force (a O) = RNone /\ b_force (b O) = RNone;
  bp_master : b_master (a O) = negb (b_master (b O));
  bp_valid : forall k, (k <= H)%nat ->
     has_valid_data (b_out (a k)) = true /\ has_valid_data (b_out (b k)) = true;
  bp_bound : (p_count (b_out (a O)) + Z.of_nat H < 2 ^ 31)%Z /\
             (p_count (b_out (b O)) + Z.of_nat H < 2 ^ 31)%Z;
  bp_honest : forall i, honest (p_count (b_out (a O))) (p_count (b_out (b O))) (junka i) /\
                        honest (p_count (b_out (b O))) (p_count (b_out (a O))) (junkb i);
  bp_honest0 : honest (p_count (b_out (a O))) (p_count (b_out (b O))) (b_out (a O)) /\
               honest (p_count (b_out (b O))) (p_count (b_out (a O))) (b_out (b O));
  bp_since : (0 <= b_since (a O))%Z /\ (0 <= b_since (b O))%Z;
  bp_last : (lba = O -> b_last (a O) = in_demand (b O)) /\ (lab = O -> b_last (b O) = in_demand (a O))
}.

(** From any start in which at least one side supplies, whatever is in the
    channels, the roles are complementary from frame 4*(loop delay)+8 on. *)
Theorem C26_roles_settle :
  forall ea eb lab lba junka junkb a b ca cb,
  let H := (4 * (lab + lba) + 8)%nat in
  bus_pair ea eb lab lba junka junkb a b ca cb H ->
  in_demand (a O) = false \/ in_demand (b O) = false ->
  exists r, forall k, (H <= k)%nat -> in_demand (a k) = r /\ in_demand (b k) = negb r.
Proof.
  intros ea eb lab lba junka junkb a b ca cb H Hp Hs.
  destruct Hp as [Htr HL [C1 C2] He [Z1 Z2] [F1 F2] Hm Hv [B1 B2] Hj [J1 J2] [S1 S2] [L1 L2]].
  assert (Hdir : ((ca < cb \/ (ca = cb /\ b_master (a O) = true /\ b_master (b O) = false)) \/
                 (cb < ca \/ (cb = ca /\ b_master (b O) = true /\ b_master (a O) = false)))%R).
  { destruct (Rtotal_order ca cb) as [|[|]]; [left; left; assumption | | right; left; lra].
    destruct (b_master (b O)); [right | left]; right; auto. }
  destruct Hdir as [Hd|Hd].
  - destruct (roles_settle ea eb lab lba junka junkb a b ca cb) as (r & Hr); auto.
    all: try (intros k; apply He). all: try (intros k Hk; apply Hv; exact Hk).
    all: try (intros i; apply Hj). apply J1.
    exists r. exact Hr.
  - destruct (roles_settle eb ea lba lab junkb junka b a cb ca) as (r & Hr); auto; try lia.
    all: try (intros k; apply He).
    all: try (intros k Hk; apply Hv; unfold horizon, H in *; lia).
    all: try (intros i; apply Hj). apply pair_trace_sym. exact Htr.
    apply J2. unfold horizon, H in *. lia.
    tauto.
    exists (negb r). intros k Hk. destruct (Hr k) as [E1 E2]; [unfold horizon, H in *; lia|].
    rewrite negb_involutive. auto.
Qed.
Print Assumptions C26_roles_settle.

(** When both sides start in Demand having each already seen the other's demand
    flag, nothing ever changes: the pair stays Demand/Demand.  (Both sides being
    forced to Demand and then released leads there: C26_forced_pair.) *)
Theorem C26_both_demand_refuted :
  exists ea eb lab lba junka junkb a b ca cb,
  bus_pair ea eb lab lba junka junkb a b ca cb (4 * (lab + lba) + 8) /\
  forall k, in_demand (a k) = true /\ in_demand (b k) = true.
Proof.
  set (e := {| e_cap := 1%R; e_src := 1%R; e_energy := 1%R; e_fr := [] |}).
  set (p := {| p_count := 5%Z; p_loop := 4%Z; p_dem := true; p_cap := 1%R; p_src := 0%R; p_energy := 1%R; p_fr := [] |}).
  set (s := fun m => {| b_in := p; b_out := p; b_last := true; b_since := 9%Z; b_lat := 1%Z;
       b_force := RNone; b_master := m; b_notes := [] |}).
  set (fr := fun (k : nat) rx s => fframe e rx s).
  set (A := sim_a fr fr b_out b_out 1 1 (fun _ => p) (fun _ => p) (s true) (s false)).
  set (B := sim_b fr fr b_out b_out 1 1 (fun _ => p) (fun _ => p) (s true) (s false)).
  assert (Htr : pair_trace fr fr b_out b_out 1 1 (fun _ => p) (fun _ => p) A B)
    by (apply sim_trace; lia).
  assert (E0 : (1 <=~ 0)%R = false) by (rnum; destruct (Rleb_spec 1 0); [lra | reflexivity]).
  assert (E1 : (1 <~ 0)%R = false) by (rnum; destruct (Rltb_spec 1 0); [lra | reflexivity]).
  (* role and memory are invariant, packets of frame k carry count 5+k *)
  assert (Hinv : forall k, let ok (x : fbus) := b_force x = RNone /\ in_demand x = true /\ b_last x = true /\
       p_cap (b_out x) = 1%R /\ p_energy (b_out x) = 1%R /\ p_fr (b_out x) = [] in
       ok (A k) /\ ok (B k)).
  { assert (Hf : forall x rx, b_force x = RNone -> in_demand x = true -> b_last x = true -> p_dem rx = true ->
        let y := fframe e rx x in b_force y = RNone /\ in_demand y = true /\ b_last y = true /\
       p_cap (b_out y) = 1%R /\ p_energy (b_out y) = 1%R /\ p_fr (b_out y) = []).
    { intros x rx H1 H2 H3 H4. cbn zeta.
      destruct (fframe_spec e rx x H1) as (A1 & A2 & _ & _ & A5 & _ & A7 & _).
      assert (D : dem2 e x rx = true)
        by (unfold dem2, dem1; rewrite H2, H3, H4; cbn; destruct (has_valid_data rx); reflexivity).
      repeat split; auto.
      - congruence.
      - rewrite A2, H4, H3. destruct (has_valid_data rx); reflexivity.
      - unfold fframe, process_outputs, process_inputs.
        assert (G : in_demand (flip_on_input (update_frame_counts (set_in x rx))) = true).
        { unfold flip_on_input. cbn. rewrite H1. cbn. rewrite H4, H3. unfold in_demand in H2. rewrite H2. cbn.
          destruct (has_valid_data rx); cbn; exact H2. }
        unfold set_state. rewrite G. unfold set_flow_state. rewrite G. cbn [negb].
        unfold in_demand in *. cbn. rewrite G. reflexivity.
      - unfold fframe, process_outputs, process_inputs.
        assert (G : in_demand (flip_on_input (update_frame_counts (set_in x rx))) = true).
        { unfold flip_on_input. cbn. rewrite H1. cbn. rewrite H4, H3. unfold in_demand in H2. rewrite H2. cbn.
          destruct (has_valid_data rx); cbn; exact H2. }
        unfold set_state. rewrite G. unfold set_flow_state. rewrite G. cbn [negb].
        unfold in_demand in *. cbn. rewrite G. reflexivity. }
    cbn zeta. induction k as [k IH] using (well_founded_induction lt_wf).
    destruct k as [|k]; [cbn; repeat split; reflexivity|].
    destruct (Htr k) as [-> ->].
    assert (R1 : p_dem (received 1 (fun _ => p) (fun i => b_out (B i)) (S k)) = true).
    { unfold received. destruct (Nat.ltb_spec (S k) 1); [lia|]. apply (IH (S k - 1)%nat). lia. }
    assert (R2 : p_dem (received 1 (fun _ => p) (fun i => b_out (A i)) (S k)) = true).
    { unfold received. destruct (Nat.ltb_spec (S k) 1); [lia|]. apply (IH (S k - 1)%nat). lia. }
    destruct (IH k ltac:(lia)) as [(I1 & I2 & I3 & _) (K1 & K2 & K3 & _)].
    split; [apply (Hf (A k)) | apply (Hf (B k))]; assumption. }
  assert (Hcnt : forall k, (k < 1000)%nat -> p_count (b_out (A k)) = (5 + Z.of_nat k)%Z /\
                                              p_count (b_out (B k)) = (5 + Z.of_nat k)%Z).
  { induction k as [|k IH]; intros Hk; [cbn; auto|].
    destruct (IH ltac:(lia)) as [I1 I2]. destruct (Htr k) as [-> ->]. unfold fr.
    destruct (fframe_counts e (received 1 (fun _ => p) (fun i => b_out (B i)) (S k)) (A k)) as [-> _].
    destruct (fframe_counts e (received 1 (fun _ => p) (fun i => b_out (A i)) (S k)) (B k)) as [-> _].
    rewrite I1, I2. unfold u32. rewrite Z.mod_small by lia. lia. }
  exists (fun _ => e), (fun _ => e), 1%nat, 1%nat, (fun _ => p), (fun _ => p), A, B, 1%R, 1%R.
  split; [|intros k; destruct (Hinv k) as [(_ & H & _) (_ & H' & _)]; auto].
  constructor.
  - exact Htr.
  - lia.
  - split; lra.
  - intros k; split; reflexivity.
  - split; reflexivity.
  - split; reflexivity.
  - reflexivity.
  - intros k Hk. destruct (Hinv k) as [(_ & D1 & _ & X1 & X2 & X3) (_ & D2 & _ & Y1 & Y2 & Y3)].
    destruct (Hcnt k ltac:(lia)) as [Q1 Q2]. unfold in_demand in *.
    unfold has_valid_data. rewrite X1, X2, X3, Y1, Y2, Y3, D1, D2, Q1, Q2.
    change n0 with 0%R. rewrite E0, E1. cbn [negb]. rewrite !andb_false_r.
    destruct (Z.ltb_spec (5 + Z.of_nat k) 1); [lia|]. split; reflexivity.
  - cbn; lia.
  - intros i. unfold honest; cbn; lia.
  - unfold honest; cbn; lia.
  - cbn; lia.
  - split; intros Hc; discriminate Hc.
Qed.
Print Assumptions C26_both_demand_refuted.

(** How to get there: a side in Demand that is forced to Demand while the other
    side's packets also say Demand remembers that flag and keeps the role after
    the force is reset. *)
Theorem C26_forced_pair :
  forall {T} {N : Num T} (s : fbus (T := T)) rx,
  b_force s = RDemand -> in_demand s = true -> has_valid_data rx = true -> p_dem rx = true ->
  let s' := set_force (process_inputs (set_in s rx)) RNone in
  in_demand s' = true /\ b_last s' = true /\ b_force s' = RNone.
Proof.
  intros T N s rx Hf Hd Hv Hp. cbn zeta. unfold process_inputs, flip_on_input.
  change (b_force (update_frame_counts (set_in s rx))) with (b_force s). rewrite Hf.
  change (in_demand (update_frame_counts (set_in s rx))) with (in_demand s). rewrite Hd. cbn [negb andb].
  change (b_in (update_frame_counts (set_in s rx))) with rx. rewrite Hv, Hp.
  change (p_dem (b_out (update_frame_counts (set_in s rx)))) with (in_demand s). rewrite Hd. cbn [negb andb].
  unfold flip_to_supply. change (b_force (update_frame_counts (set_in s rx))) with (b_force s). rewrite Hf.
  change (b_last (update_frame_counts (set_in s rx))) with (b_last s).
  destruct (b_last s); cbn; rewrite ?Hp; auto.
Qed.
Print Assumptions C26_forced_pair.

(** From initialisation with empty channels; data validity is now a condition on
    what the two models write each frame. *)
Definition good_env (c : R) (e : fenv (T := R)) : Prop :=
  e_cap e = c /\ (0 < e_energy e)%R /\ (0 <= e_src e)%R /\ forall x, In x (e_fr e) -> (0 <= x)%R.

Lemma fframe_packet (e : fenv (T := R)) rx s :
  let p := b_out (fframe e rx s) in
  p_energy p = e_energy e /\ p_fr p = e_fr e /\ p_cap p = e_cap e /\ (p_src p = e_src e \/ p_src p = 0%R).
Proof.
  cbn zeta. unfold fframe. generalize (process_inputs (set_in s rx)). intros u.
  assert (Hu : let v := set_state e u in p_energy (b_out v) = e_energy e /\ p_fr (b_out v) = e_fr e /\
               p_src (b_out v) = e_src e).
  { cbn zeta. unfold set_state, set_flow_state, set_fluid_state. destruct (in_demand u); cbn; auto. }
  cbn zeta in Hu. destruct Hu as (H1 & H2 & H3).
  set (v := set_state e u) in *. clearbody v. unfold process_outputs, flip_on_capacitance.
  destruct (negb _); [|cbn; auto].
  destruct (_ && _); [|cbn; auto].
  unfold flip_to_demand. destruct (b_force _); cbn; rnum; auto.
Qed.

Lemma fframe_valid e rx (s : fbus (T := R)) c : good_env c e -> (0 <= c)%R ->
  (1 <= p_count (b_out (fframe e rx s)))%Z -> has_valid_data (b_out (fframe e rx s)) = true.
Proof.
  intros (G1 & G2 & G3 & G4) Hc Hk.
  destruct (fframe_packet e rx s) as (P1 & P2 & P3 & P4).
  set (p := b_out (fframe e rx s)) in *. clearbody p.
  unfold has_valid_data. rewrite P1, P2, P3, G1.
  destruct (Z.ltb_spec (p_count p) 1); [lia|]. rnum. cbn [orb].
  destruct (Rleb_spec (e_energy e) 0); [lra|]. destruct (Rltb_spec c 0); [lra|]. cbn [orb].
  destruct (Rltb_spec (p_src p) 0) as [Hq|_]; [destruct P4 as [P|P]; rewrite P in Hq; lra|].
  cbn [andb]. apply forallb_forall. intros x Hx. destruct (Rltb_spec x 0); [|reflexivity].
  specialize (G4 x Hx). lra.
Qed.

Lemma trace_shift {S1 S2 K1 K2} fa fb (outa : S1 -> K1) (outb : S2 -> K2) lab lba junka junkb a b :
  pair_trace fa fb outa outb lab lba junka junkb a b ->
  pair_trace (fun k => fa (S k)) (fun k => fb (S k)) outa outb lab lba
    (fun i => if i =? 1 then outa (a O) else junka (i - 1)%nat)
    (fun i => if i =? 1 then outb (b O) else junkb (i - 1)%nat)
    (fun k => a (S k)) (fun k => b (S k)).
Proof.
  intros Htr k.
  assert (Hrx : forall K (l : nat) (junk : nat -> K) (out : nat -> K),
     received l junk out (S (S k)) =
     received l (fun i => if i =? 1 then out O else junk (i - 1)%nat) (fun i => out (S i)) (S k)).
  { intros K l junk out. unfold received.
    destruct (Nat.ltb_spec (S (S k)) l) as [H1|H1]; destruct (Nat.ltb_spec (S k) l) as [H2|H2]; try lia.
    - destruct (Nat.eqb_spec (l - S k) 1); [lia|]. f_equal. lia.
    - destruct (Nat.eqb_spec (l - S k) 1); [|lia]. f_equal. lia.
    - f_equal. lia. }
  destruct (Htr (S k)) as [E1 E2]. rewrite E1, E2, !Hrx. split; reflexivity.
Qed.

Theorem C26_roles_settle_from_start :
  forall (ea eb : nat -> fenv) lab lba a b ca cb m nfr,
  pair_trace (fun k rx s => fframe (ea k) rx s) (fun k rx s => fframe (eb k) rx s) b_out b_out lab lba
     (fun _ => packet0) (fun _ => packet0) a b ->
  a O = binitialize m nfr constructed -> b O = binitialize (negb m) nfr constructed ->
  (1 <= lab + lba)%nat -> (Z.of_nat (lab + lba) < 2 ^ 28)%Z -> (0 <= ca)%R -> (0 <= cb)%R ->
  (forall k, good_env ca (ea k) /\ good_env cb (eb k)) ->
  exists r, forall k, (4 * (lab + lba) + 9 <= k)%nat -> in_demand (a k) = r /\ in_demand (b k) = negb r.
Proof.
  intros ea eb lab lba a b ca cb m nfr Htr Ha Hb HL HLs Hca Hcb Hg.
  pose proof (trace_shift _ _ _ _ _ _ _ _ a b Htr) as Hsh. cbn beta in Hsh.
  assert (Fa : b_force (a O) = RNone) by (rewrite Ha; reflexivity).
  assert (Fb : b_force (b O) = RNone) by (rewrite Hb; reflexivity).
  assert (Hca0 : forall k, (Z.of_nat k < 2 ^ 31)%Z ->
     p_count (b_out (a k)) = Z.of_nat k /\ p_count (b_out (b k)) = Z.of_nat k).
  { induction k as [|k IH]; intros Hk; [rewrite Ha, Hb; cbn; auto|].
    destruct (IH ltac:(lia)) as [I1 I2]. destruct (Htr k) as [-> ->].
    match goal with |- context [fframe (ea (S k)) ?r (a k)] => destruct (fframe_counts (ea (S k)) r (a k)) as [-> _] end.
    match goal with |- context [fframe (eb (S k)) ?r (b k)] => destruct (fframe_counts (eb (S k)) r (b k)) as [-> _] end.
    rewrite I1, I2. unfold u32. rewrite Z.mod_small by lia. lia. }
  destruct (Htr O) as [EA EB].
  set (ra := received lba (fun _ => packet0) (fun i => b_out (b i)) 1) in *.
  set (rb := received lab (fun _ => packet0) (fun i => b_out (a i)) 1) in *.
  destruct (fframe_spec (ea 1%nat) ra (a O) Fa) as (A1 & A2 & A3 & A4 & A5 & A6 & A7 & A8 & A9).
  destruct (fframe_spec (eb 1%nat) rb (b O) Fb) as (B1 & B2 & B3 & B4 & B5 & B6 & B7 & B8 & B9).
  rewrite <- EA in A1, A2, A3, A4, A5, A6, A7, A8, A9. rewrite <- EB in B1, B2, B3, B4, B5, B6, B7, B8, B9.
  assert (Hsince : forall s rx (e : fenv (T := R)), (0 <= b_since s)%Z ->
     (0 <= if eqb (dem2 e s rx) (dem1 s rx) then since1 s rx else 0)%Z).
  { intros s rx e Hs. unfold since1.
    repeat match goal with |- context [if ?c then _ else _] => destruct c end; lia. }
  assert (Hval : forall k, (k <= 4 * (lab + lba) + 8)%nat ->
     has_valid_data (b_out (a (S k))) = true /\ has_valid_data (b_out (b (S k))) = true).
  { intros k Hk. destruct (Hca0 (S k) ltac:(lia)) as [Q1 Q2]. destruct (Htr k) as [E1 E2].
    rewrite E1 in Q1. rewrite E2 in Q2. rewrite E1, E2.
    split; eapply fframe_valid; try (apply Hg); auto; lia. }
  (* what a side receives in frame 1 over a delayed channel is invalid and has capacitance 0 *)
  assert (Hnil : forall r, r = packet0 (T := R) \/ r = b_out (a O) \/ r = b_out (b O) ->
     has_valid_data r = false /\ p_cap r = 0%R).
  { intros r [-> | [-> | ->]]; [|rewrite Ha|rewrite Hb]; cbn; auto. }
  assert (Hfirst : forall (e : fenv (T := R)) s r c, good_env c e -> (0 <= c)%R -> in_demand s = false ->
     has_valid_data r = false -> p_cap r = 0%R -> dem2 e s r = false).
  { intros e s r c (G1 & _) Hc Hs Hv Hr. unfold dem2, dem1. rewrite Hv, Hs, Hr, G1. cbn [orb].
    replace (c *~ moding_ratio <~ 0)%R with false; [apply andb_false_r|].
    symmetry. unfold moding_ratio. rnum. match goal with |- Rltb ?x ?y = false => destruct (Rltb_spec x y) end; [|reflexivity].
    exfalso. cbn in *. lra. }
  assert (Sa : in_demand (a O) = false) by (rewrite Ha; reflexivity).
  assert (Sb : in_demand (b O) = false) by (rewrite Hb; reflexivity).
  destruct (Hca0 1%nat ltac:(lia)) as [Na Nb].
  destruct (C26_roles_settle (fun k => ea (S k)) (fun k => eb (S k)) lab lba
              (fun i => if i =? 1 then b_out (a O) else packet0)
              (fun i => if i =? 1 then b_out (b O) else packet0)
              (fun k => a (S k)) (fun k => b (S k)) ca cb) as (r & Hr).
  - constructor.
    + exact Hsh.
    + exact HL.
    + auto.
    + intros k. destruct (Hg (S k)) as [[G1 _] [G2 _]]. auto.
    + rewrite A7, B7. destruct (Hg 1%nat) as [[G1 _] [G2 _]]. auto.
    + auto.
    + rewrite A6, B6, Ha, Hb. cbn. now rewrite negb_involutive.
    + exact Hval.
    + rewrite Na, Nb. lia.
    + assert (K0 : forall r, r = packet0 (T := R) \/ r = b_out (a O) \/ r = b_out (b O) ->
          honest 1 1 r).
      { intros r [-> | [-> | ->]]; [|rewrite Ha|rewrite Hb]; unfold honest; cbn; lia. }
      rewrite Na, Nb. intros i. split; apply K0; destruct (i =? 1); auto.
    + rewrite Na, Nb. unfold honest. rewrite Na, Nb, A9, B9.
      assert (Q : forall r, (exists i, (i <= 1)%nat /\ (r = b_out (a i) \/ r = b_out (b i))) \/ r = packet0 (T := R) ->
         (0 <= p_count r <= 1)%Z).
      { intros r [(i & Hi & [-> | ->]) | ->]; [| |cbn; lia]; destruct (Hca0 i ltac:(lia)); lia. }
      assert (Qa : (0 <= p_count ra <= 1)%Z).
      { apply Q. unfold ra, received. destruct (1 <? lba)%nat; [right; reflexivity|].
        left. exists (1 - lba)%nat. split; [lia | auto]. }
      assert (Qb : (0 <= p_count rb <= 1)%Z).
      { apply Q. unfold rb, received. destruct (1 <? lab)%nat; [right; reflexivity|].
        left. exists (1 - lab)%nat. split; [lia | auto]. }
      change (Z.of_nat 1) with 1%Z. lia.
    + rewrite A3, B3. split; apply Hsince; [rewrite Ha | rewrite Hb]; cbn; lia.
    + destruct (Hval O ltac:(lia)) as [V1 V2]. split.
      * intros E. rewrite A2. unfold ra, received. subst lba. cbn [Nat.ltb Nat.leb Nat.sub]. now rewrite V2.
      * intros E. rewrite B2. unfold rb, received. subst lab. cbn [Nat.ltb Nat.leb Nat.sub]. now rewrite V1.
  - destruct lba as [|lba'].
    + right. rewrite B1. destruct (Hg 1%nat) as [_ G].
      assert (R : has_valid_data rb = false /\ p_cap rb = 0%R).
      { apply Hnil. unfold rb, received. destruct (Nat.ltb_spec 1 lab); [auto|].
        replace (1 - lab)%nat with O by lia. auto. }
      apply (Hfirst _ _ _ cb); tauto.
    + left. rewrite A1. destruct (Hg 1%nat) as [G _].
      assert (R : has_valid_data ra = false /\ p_cap ra = 0%R).
      { apply Hnil. unfold ra, received. destruct (Nat.ltb_spec 1 (S lba')); [auto|].
        replace (1 - S lba')%nat with O by lia. auto. }
      apply (Hfirst _ _ _ ca); tauto.
  - exists r. intros k Hk. destruct k as [|k]; [lia|]. apply Hr. lia.
Qed.
Print Assumptions C26_roles_settle_from_start.

Example C26_example : exists a b,
  pair_trace (fun k rx s => fframe {| e_cap := 1%R; e_src := 5%R; e_energy := 1%R; e_fr := [1%R] |} rx s)
     (fun k rx s => fframe {| e_cap := 2%R; e_src := 5%R; e_energy := 1%R; e_fr := [1%R] |} rx s)
     b_out b_out 3 2 (fun _ => packet0) (fun _ => packet0) a b /\
  a O = binitialize true 1 constructed /\ b O = binitialize false 1 constructed /\
  good_env 1 {| e_cap := 1%R; e_src := 5%R; e_energy := 1%R; e_fr := [1%R] |} /\
  good_env 2 {| e_cap := 2%R; e_src := 5%R; e_energy := 1%R; e_fr := [1%R] |}.
Proof.
  eexists _, _. split; [apply sim_trace with (a0 := binitialize true 1 constructed) (b0 := binitialize false 1 constructed); lia|].
  split; [reflexivity|]. split; [reflexivity|].
  unfold good_env; cbn. repeat split; try lra; intros x [<-|[]]; lra.
Qed.

(** ** C27: demand limit *)
Local Open Scope R_scope.
Lemma npow_bounds x n : 0 < x <= 1 -> 0 < npow x n <= 1.
Proof.
  intros Hx. induction n as [|n IH]; cbn [npow]; rnum; [lra|].
  set (y := npow x n) in *. clearbody y. split.
  - apply Rmult_lt_0_compat; lra.
  - assert (x * y <= 1 * 1) by (apply Rmult_le_compat; lra). lra.
Qed.

Theorem C27_demand_limit_bounded :
  forall (s : fbus (T := R)) dt pressure,
  let (gain, limit) := demand_limit s dt pressure in
  0 <= gain <= 1 /\ 0 <= limit /\
  (* moving limit*dt of fluid between the sides cannot overshoot equal pressures *)
  (p_cap (b_out s) > 0 -> p_cap (b_in s) > 0 -> dt > 0 ->
   limit * dt / p_cap (b_out s) + limit * dt / p_cap (b_in s) = gain * Rabs (pressure - p_src (b_in s)) /\
   limit * dt / p_cap (b_out s) + limit * dt / p_cap (b_in s) <= Rabs (pressure - p_src (b_in s))) /\
  (* and only the demand side facing a supply side gets a limit *)
  (gain <> 0 -> in_demand s = true /\ p_dem (b_in s) = false /\ Reps < dt /\
     Reps < p_cap (b_out s) /\ Reps < p_cap (b_in s)).
Proof.
  intros s dt pr. unfold demand_limit, nmin, nmax, moding_ratio.
  set (ex := Z.to_nat (Z.min 100 (Z.max 1 (b_lat s)))). clearbody ex.
  assert (Hp : 0 < npow (ndec 75 (-2)) ex <= 1) by (apply npow_bounds; cbn; lra).
  set (pw := npow (ndec 75 (-2)) ex) in *. clearbody pw. clear ex.
  pose proof (Rabs_pos (pr - p_src (b_in s))) as Habs.
  assert (Hz : 0 <= 0 <= 1 /\ 0 <= 0 /\
     (p_cap (b_out s) > 0 -> p_cap (b_in s) > 0 -> dt > 0 ->
      0 * dt / p_cap (b_out s) + 0 * dt / p_cap (b_in s) = 0 * Rabs (pr - p_src (b_in s)) /\
      0 * dt / p_cap (b_out s) + 0 * dt / p_cap (b_in s) <= Rabs (pr - p_src (b_in s))) /\
     (0 <> 0 -> in_demand s = true /\ p_dem (b_in s) = false /\ Reps < dt /\
     Reps < p_cap (b_out s) /\ Reps < p_cap (b_in s))).
  { repeat split; try lra; unfold Rdiv; rewrite !Rmult_0_l; lra. }
  destruct (in_demand s) eqn:E1; destruct (p_dem (b_in s)) eqn:E2; cbn [negb andb]; try exact Hz.
  rnum.
  destruct (Rltb_spec Reps dt) as [H1|H1]; cbn [andb]; [|exact Hz].
  destruct (Rltb_spec Reps (p_cap (b_out s))) as [H2|H2]; cbn [andb]; [|exact Hz].
  destruct (Rltb_spec Reps (p_cap (b_in s))) as [H3|H3]; cbn [andb]; [|exact Hz].
  clear Hz.
  assert (Heps : 0 < Reps) by (unfold Reps; apply Rinv_0_lt_compat; apply IZR_lt; reflexivity).
  set (lag := if Rltb (Rdec 15 (-1) * pw) 1 then Rdec 15 (-1) * pw else 1).
  assert (Hlag : 0 < lag <= 1).
  { unfold lag. destruct (Rltb_spec (Rdec 15 (-1) * pw) 1) as [H|H]; [|lra].
    split; [|lra]. apply Rmult_lt_0_compat; [cbn; lra | lra]. }
  match goal with |- context [lag + (1 - lag) * (?c - 1) * _] => set (cs := c) end.
  assert (Hcs : 1 <= cs <= 5/4).
  { unfold cs. replace (Rdec 125 (-2)) with (5/4) by (cbn; lra). rcases; lra. }
  clearbody lag cs. replace (Rdec 4 0) with 4 by reflexivity.
  set (g := lag + (1 - lag) * (cs - 1) * 4).
  assert (Hg : 0 < g <= 1).
  { assert (0 <= (1 - lag) * (cs - 1)) by (apply Rmult_le_pos; lra).
    assert ((1 - lag) * (cs - 1) <= (1 - lag) * (1/4)) by (apply Rmult_le_compat_l; lra).
    unfold g. lra. }
  clearbody g.
  set (A := Rabs (pr - p_src (b_in s))) in *. clearbody A.
  set (co := p_cap (b_out s)) in *. set (ci := p_cap (b_in s)) in *. clearbody co ci.
  assert (Hco : 0 < co) by lra. assert (Hci : 0 < ci) by lra. assert (Hdt : 0 < dt) by lra.
  assert (Hden : 0 < dt * (1 / co + 1 / ci)).
  { apply Rmult_lt_0_compat; [lra|]. apply Rplus_lt_0_compat; apply Rdiv_lt_0_compat; lra. }
  split; [lra|]. split; [|split].
  - apply Rmult_le_pos; [apply Rmult_le_pos; lra|]. left. now apply Rinv_0_lt_compat.
  - intros _ _ _.
    assert (E : g * A / (dt * (1 / co + 1 / ci)) * dt / co + g * A / (dt * (1 / co + 1 / ci)) * dt / ci = g * A).
    { assert (co + ci <> 0) by lra. field. repeat split; lra. }
    rewrite E. split; [reflexivity|].
    rewrite <- (Rmult_1_l A) at 2. apply Rmult_le_compat_r; lra.
  - intros _. repeat split; assumption.
Qed.
Print Assumptions C27_demand_limit_bounded.

(** At the limit the step can equalise exactly when the loop is fast enough. *)
Example C27_example : forall (s : fbus (T := R)),
  in_demand s = true -> p_dem (b_in s) = false -> b_lat s = 1%Z ->
  p_cap (b_out s) = 1 -> p_cap (b_in s) = 1 -> fst (demand_limit s 1 5) = 1.
Proof.
  intros s H1 H2 H3 H4 H5. unfold demand_limit. rewrite H1, H2, H3, H4, H5. cbn [negb andb]. rnum.
  assert (Reps < 1).
  { unfold Reps. rewrite <- Rinv_1. apply Rinv_1_lt_contravar; [lra|]. apply IZR_lt. reflexivity. }
  destruct (Rltb_spec Reps 1); [|lra]. cbn [andb fst].
  change (Z.to_nat (Z.min 100 (Z.max 1 1))) with 1%nat. unfold nmin, nmax, moding_ratio; cbn [npow]; rnum.
  replace (Rdec 15 (-1) * (Rdec 75 (-2) * 1)) with (9/8) by (cbn; lra).
  replace (Rdec 125 (-2)) with (5/4) by (cbn; lra). replace (1/1) with 1 by lra.
  destruct (Rltb_spec (9/8) 1); [lra|]. destruct (Rltb_spec 1 1); [lra|].
  destruct (Rltb_spec 1 (5/4)); lra.
Qed.
Local Close Scope R_scope.

(** ** C28: forced roles (every number type) *)
Definition forced_to (r : role) : option bool :=
  match r with RNone => None | RSupply => Some false | RDemand => Some true end.

Lemma flips_forced {T} {N : Num T} (s : fbus (T := T)) d : forced_to (b_force s) = Some d -> in_demand s = d ->
  in_demand (flip_to_demand s) = d /\ in_demand (flip_to_supply s) = d /\
  b_force (flip_to_demand s) = b_force s /\ b_force (flip_to_supply s) = b_force s.
Proof.
  intros Hf Hd. unfold flip_to_demand, flip_to_supply.
  destruct (b_force s) eqn:E; cbn in Hf; [discriminate Hf| |]; injection Hf as <-; cbn; rewrite ?E; auto.
Qed.

Theorem C28_fluid_forced_role_obeyed :
  forall {T} {N : Num T} (s : fbus (T := T)) d,
  forced_to (b_force s) = Some d ->
  in_demand (process_inputs s) = d /\
  (forall ops, in_demand s = d ->
     in_demand (fold_left fapply ops s) = d /\ b_force (fold_left fapply ops s) = b_force s).
Proof.
  intros T N s d Hf.
  assert (Hin : forall s, forced_to (b_force s) = Some d ->
     in_demand (flip_on_input s) = d /\ b_force (flip_on_input s) = b_force s).
  { intros u Hu. unfold flip_on_input.
    destruct (Bool.bool_dec (in_demand u) d) as [Hd|Hd].
    - destruct (flips_forced u d Hu Hd) as (F1 & F2 & F3 & F4).
      repeat match goal with |- context [if ?c then _ else _] => destruct c end;
      cbn [set_last]; auto.
    - destruct (b_force u) eqn:E; cbn in Hu; [discriminate Hu| |]; injection Hu as <-.
      + destruct (in_demand u) eqn:Eu; [|congruence]. cbn. unfold flip_to_supply. rewrite E. cbn. auto.
      + destruct (in_demand u) eqn:Eu; [congruence|]. cbn. unfold flip_to_demand. rewrite E. cbn. auto. }
  split.
  - apply Hin. exact Hf.
  - intros ops Hd.
    assert (Hop : forall u o, forced_to (b_force u) = Some d -> in_demand u = d ->
       in_demand (fapply u o) = d /\ b_force (fapply u o) = b_force u).
    { intros u o Hu Hud. destruct o as [p| |c|p e fr|q e fr]; cbn [fapply].
      - auto.
      - apply (Hin (update_frame_counts u)). exact Hu.
      - unfold process_outputs, flip_on_capacitance.
        set (v := set_out u (p_with_cap (b_out u) c)).
        assert (V1 : forced_to (b_force v) = Some d) by exact Hu.
        assert (V2 : in_demand v = d) by exact Hud.
        assert (V3 : b_force v = b_force u) by reflexivity.
        clearbody v. destruct (flips_forced v d V1 V2) as (F1 & _ & F3 & _).
        destruct (negb _); [|auto]. destruct (_ && _); [|auto].
        change (in_demand (set_out (flip_to_demand v) _)) with (in_demand (flip_to_demand v)).
        cbn [set_out b_force]. split; [exact F1 | congruence].
      - unfold set_fluid_state. destruct (in_demand u) eqn:E; cbn; unfold in_demand in *; cbn; split; congruence.
      - unfold set_flow_state. destruct (in_demand u) eqn:E; cbn; unfold in_demand in *; cbn; split; congruence. }
    clear Hin. revert s Hf Hd. induction ops as [|o ops IH]; intros s Hf Hd; cbn [fold_left]; [auto|].
    destruct (Hop s o Hf Hd) as [H1 H2].
    destruct (IH (fapply s o)) as [I1 I2]; [now rewrite H2 | exact H1|].
    split; congruence.
Qed.
Print Assumptions C28_fluid_forced_role_obeyed.

Theorem C28_elect_forced_role_obeyed :
  forall {T} {N : Num T} (s : ebus (T := T)) d v p,
  forced_to (c_force s) = Some d ->
  q_dem (c_out (eupdate v p s)) = d /\ c_force (eupdate v p s) = c_force s /\
  q_dem (c_out (eprocess_inputs s)) = q_dem (c_out s) /\ c_force (eprocess_inputs s) = c_force s.
Proof.
  intros T N s d v p Hf. unfold eupdate, edecide.
  destruct (c_force s) eqn:E; cbn in Hf; [discriminate Hf| |]; injection Hf as <-; cbn; auto.
Qed.
Print Assumptions C28_elect_forced_role_obeyed.

(** ** C29: notifications *)

(** The behaviour a queue would have. *)
Definition fifo_pop (q : list note) : (list note * note) * nat :=
  match q with [] => (([], (LNone, 0%nat)), 0%nat) | x :: r => ((r, x), length r) end.

Theorem C29_notifications_fifo_refuted :
  exists n1 n2 : note,
    let q := push_notification (push_notification [] n1) n2 in
    snd (fst (pop_notification q)) <> snd (fst (fifo_pop q)).
Proof. exists (LInfo, 1%nat), (LInfo, 2%nat). vm_compute. discriminate. Qed.
Print Assumptions C29_notifications_fifo_refuted.

(** What it does: last in, first out; the count is what is left; a pop on an
    empty queue gives the NONE notification. *)
Theorem C29_notifications_lifo :
  forall q n,
  pop_notification (push_notification q n) = ((q, n), length q) /\
  pop_notification [] = (([], (LNone, 0%nat)), 0%nat).
Proof.
  intros q n. split; [|reflexivity]. unfold push_notification, pop_notification.
  destruct (q ++ [n]) eqn:E; [destruct q; discriminate E|]. rewrite <- E.
  rewrite removelast_last, last_last. reflexivity.
Qed.
Print Assumptions C29_notifications_lifo.

(** ** C30: loop latency *)
Theorem C30_fluid_latency_exact :
  forall {T} {N : Num T} (ea eb : nat -> fenv (T := T)) lab lba junka junkb a b,
  pair_trace (fun k rx s => fframe (ea k) rx s) (fun k rx s => fframe (eb k) rx s)
     b_out b_out lab lba junka junkb a b ->
  (Z.of_nat (lab + lba) < 2 ^ 31)%Z ->
  (forall k, (lba + 1 <= k)%nat -> (lab + lba <= k)%nat -> b_lat (a k) = Z.of_nat (lab + lba)) /\
  (forall k, (lab + 1 <= k)%nat -> (lab + lba <= k)%nat -> b_lat (b k) = Z.of_nat (lab + lba)).
Proof.
  intros T N ea eb lab lba junka junkb a b Htr HL. split.
  - intros k H1 H2.
    apply (latency_a (fun k rx s => fframe (ea k) rx s) (fun k rx s => fframe (eb k) rx s)
      b_out b_out lab lba junka junkb p_count p_loop b_lat) with (b := b); try lia; auto;
    intros; apply fframe_counts.
  - intros k H1 H2. rewrite Nat.add_comm.
    apply (latency_a (fun k rx s => fframe (eb k) rx s) (fun k rx s => fframe (ea k) rx s)
      b_out b_out lba lab junkb junka p_count p_loop b_lat) with (b := a); try lia;
    try (intros; apply fframe_counts). apply pair_trace_sym. exact Htr.
Qed.
Print Assumptions C30_fluid_latency_exact.

Theorem C30_elect_latency_exact :
  forall {T} {N : Num T} (ea eb : nat -> eenv (T := T)) lab lba junka junkb a b,
  pair_trace (fun k rx s => eframe (ea k) rx s) (fun k rx s => eframe (eb k) rx s)
     c_out c_out lab lba junka junkb a b ->
  (Z.of_nat (lab + lba) < 2 ^ 31)%Z ->
  (forall k, (lba + 1 <= k)%nat -> (lab + lba <= k)%nat -> c_lat (a k) = Z.of_nat (lab + lba)) /\
  (forall k, (lab + 1 <= k)%nat -> (lab + lba <= k)%nat -> c_lat (b k) = Z.of_nat (lab + lba)).
Proof.
  intros T N ea eb lab lba junka junkb a b Htr HL. split.
  - intros k H1 H2.
    apply (latency_a (fun k rx s => eframe (ea k) rx s) (fun k rx s => eframe (eb k) rx s)
      c_out c_out lab lba junka junkb q_count q_loop c_lat) with (b := b); try lia; auto;
    intros; apply eframe_counts.
  - intros k H1 H2. rewrite Nat.add_comm.
    apply (latency_a (fun k rx s => eframe (eb k) rx s) (fun k rx s => eframe (ea k) rx s)
      c_out c_out lba lab junkb junka q_count q_loop c_lat) with (b := a); try lia;
    try (intros; apply eframe_counts). apply pair_trace_sym. exact Htr.
Qed.
Print Assumptions C30_elect_latency_exact.

(** Counter wrap does not disturb the measurement. *)
Example C30_example :
  let p c := {| p_count := c; p_loop := 4294967000; p_dem := false; p_cap := 1%float; p_src := 1%float;
                p_energy := 1%float; p_fr := [] |} in
  let s := {| b_in := p 4294967294%Z; b_out := p 4294967294%Z; b_last := false; b_since := 0; b_lat := 0;
              b_force := RNone; b_master := false; b_notes := [] |} in
  let e := {| e_cap := 1%float; e_src := 1%float; e_energy := 1%float; e_fr := [] |} in
  let fr := fun (_ : nat) rx s => fframe e rx s in
  map (fun k => b_lat (sim_a fr fr b_out b_out 2 3 (fun _ => p 4294967290%Z) (fun _ => p 4294967290%Z) s s k))
      [5; 6; 7; 8; 20]%nat = [5; 5; 5; 5; 5]%Z.
Proof. vm_compute. reflexivity. Qed.

(** ** C31: electrical bus *)
Theorem C31_not_both_demand :
  forall {T} {N : Num T} (ea eb : nat -> eenv (T := T)) lab lba junka junkb a b,
  pair_trace (fun k rx s => eframe (ea k) rx s) (fun k rx s => eframe (eb k) rx s)
     c_out c_out lab lba junka junkb a b ->
  (Z.of_nat (lab + lba) < 2 ^ 31)%Z ->
  c_force (a O) = RNone -> (0 <= c_since (a O))%Z -> (0 <= q_count (c_out (a O)))%Z ->
  forall k, (lab + lba <= k)%nat ->
  exists j, (k <= j <= k + (lab + lba) + 3)%nat /\
    ~ (q_dem (c_out (a j)) = true /\ q_dem (c_out (b j)) = true).
Proof.
  intros T N ea eb lab lba junka junkb a b Htr HL Hf Hs Hc0 k Hk.
  set (L := (lab + lba)%nat) in *.
  destruct (C30_elect_latency_exact ea eb lab lba junka junkb a b Htr HL) as [Hlat _].
  assert (Hforce : forall j, c_force (a j) = RNone).
  { induction j as [|j IH]; [exact Hf|]. destruct (Htr j) as [-> _].
    unfold eframe, eupdate. destruct (edecide _ _) as [[d n] l]. cbn. exact IH. }
  assert (Hsn : forall j, (0 <= c_since (a j))%Z).
  { induction j as [|j IH]; [exact Hs|]. destruct (Htr j) as [-> _].
    unfold eframe, eupdate, edecide. cbn -[Z.add]. rewrite Hforce.
    repeat match goal with |- context [if ?c then _ else _] => destruct c end; cbn -[Z.add]; lia. }
  (* one frame of A without a flip *)
  assert (Hstep : forall j, q_dem (c_out (a j)) = true -> q_dem (c_out (a (S j))) = true ->
      c_since (a (S j)) = (c_since (a j) + 1)%Z /\
      let rx := received lba junkb (fun i => c_out (b i)) (S j) in
      (0 < q_loop rx -> q_dem rx = true -> c_since (a j) + 1 <= c_lat (a (S j)))%Z).
  { intros j Hj. destruct (Htr j) as [-> _].
    set (rx := received lba junkb (fun i => c_out (b i)) (S j)).
    unfold eframe, eupdate, edecide. cbn -[Z.add s32 u32]. rewrite Hforce, Hj.
    destruct (Z.ltb_spec 0 (q_loop rx)) as [H0|H0].
    - destruct (q_dem rx) eqn:Er; cbn [andb].
      + destruct (Z.ltb_spec (s32 (u32 (q_count (c_out (a j)) + 1) - q_loop rx)) (c_since (a j) + 1)) as [H1|H1].
        * cbn. intros Hc. discriminate Hc.
        * cbn -[Z.add s32 u32]. intros _. split; [reflexivity|]. intros _ _. lia.
      + cbn -[Z.add s32 u32]. intros _. split; [reflexivity|]. intros _ Hc. discriminate Hc.
    - cbn -[Z.add s32 u32]. intros _. split; [reflexivity|]. intros Hc. lia. }
  destruct (Classical_Prop.classic
    (exists j, (k <= j <= k + L + 3)%nat /\ ~ (q_dem (c_out (a j)) = true /\ q_dem (c_out (b j)) = true)))
    as [H|Hno]; [exact H|].
  exfalso.
  assert (Hall : forall j, (k <= j <= k + L + 3)%nat -> q_dem (c_out (a j)) = true /\ q_dem (c_out (b j)) = true).
  { intros j Hj. destruct (q_dem (c_out (a j))) eqn:E1; destruct (q_dem (c_out (b j))) eqn:E2; auto;
    exfalso; apply Hno; exists j; (split; [exact Hj|]); rewrite E1, E2; intros [X Y]; discriminate. }
  assert (Hgrow : forall n, (n <= L + 3)%nat -> (Z.of_nat n <= c_since (a (k + n)%nat))%Z).
  { induction n as [|n IH]; intros Hn; [rewrite Nat.add_0_r; specialize (Hsn k); lia|].
    replace (k + S n)%nat with (S (k + n)) by lia.
    destruct (Hstep (k + n)%nat) as [-> _]; [apply Hall; lia | apply Hall; lia|].
    specialize (IH ltac:(lia)). lia. }
  (* the echoed counter is zero in at most one of two consecutive frames *)
  assert (Hmsg : forall m, (k + L + 1 <= m <= k + L + 3)%nat -> (m >= 1)%nat ->
      q_loop (received lba junkb (fun i => c_out (b i)) m) = q_count (c_out (a (m - L)%nat)) /\
      q_dem (received lba junkb (fun i => c_out (b i)) m) = true).
  { intros m Hm H1. unfold received. destruct (Nat.ltb_spec m lba); [unfold L in *; lia|].
    split; [|apply Hall; unfold L in *; lia].
    destruct (m - lba)%nat as [|i] eqn:Ei; [unfold L in *; lia|].
    destruct (Htr i) as [_ ->]. destruct (eframe_counts (eb (S i)) (received lab junka (fun i => c_out (a i)) (S i)) (b i)) as (_ & -> & _).
    unfold received. destruct (Nat.ltb_spec (S i) lab); [unfold L in *; lia|]. do 3 f_equal. unfold L. lia. }
  assert (Hcnt : forall j, q_count (c_out (a (S j))) = u32 (q_count (c_out (a j)) + 1)).
  { intros j. destruct (Htr j) as [-> _]. apply eframe_counts. }
  assert (Hkey : forall m, (k + L + 2 <= m <= k + L + 3)%nat -> (q_count (c_out (a (m - L)%nat)) <= 0)%Z).
  { intros m Hm. destruct m as [|m']; [lia|].
    destruct (Hstep m') as [_ Hst]; [apply Hall; lia | apply Hall; lia|].
    destruct (Hmsg (S m') ltac:(lia) ltac:(lia)) as [Q1 Q2]. cbn zeta in Hst. rewrite Q1 in Hst.
    destruct (Z.lt_ge_cases 0 (q_count (c_out (a (S m' - L)%nat)))) as [Hp|Hp]; [|exact Hp].
    exfalso. specialize (Hst Hp Q2).
    rewrite Hlat in Hst by (unfold L in *; lia).
    assert (G := Hgrow (m' - k)%nat ltac:(lia)). replace (k + (m' - k))%nat with m' in G by lia.
    fold L in Hst. lia. }
  pose proof (Hkey (k + L + 2)%nat ltac:(lia)) as K1.
  pose proof (Hkey (k + L + 3)%nat ltac:(lia)) as K2.
  replace (k + L + 3 - L)%nat with (S (k + L + 2 - L)) in K2 by lia. rewrite Hcnt in K2.
  assert (Hpos : (0 <= q_count (c_out (a (k + L + 2 - L)%nat)))%Z).
  { destruct (k + L + 2 - L)%nat as [|j] eqn:Ej; [exact Hc0|]. rewrite Hcnt. unfold u32. apply Z.mod_pos_bound. lia. }
  unfold u32 in K2. rewrite Z.mod_small in K2 by lia. lia.
Qed.
Print Assumptions C31_not_both_demand.

(** Both sides do pass through Demand/Demand: A takes over with the higher
    remote voltage and B gives way. *)
Example C31_example :
  let q d v := {| q_count := 10; q_loop := 9; q_dem := d; q_power := 0%float; q_volt := v |} in
  let s d v := {| c_in := q (negb d) v; c_out := q d v; c_since := 50; c_lat := 2; c_force := RNone;
                  c_notes := []; c_supplies := [(true, v)] |} in
  let fr v := fun (_ : nat) rx s => eframe {| v_supplies := [(true, v)]; v_volt := v; v_power := 1%float |} rx s in
  let A := sim_a (fr 10%float) (fr 20%float) c_out c_out 1 1 (fun _ => q false 10%float) (fun _ => q true 20%float) (s false 10%float) (s true 20%float) in
  let B := sim_b (fr 10%float) (fr 20%float) c_out c_out 1 1 (fun _ => q false 10%float) (fun _ => q true 20%float) (s false 10%float) (s true 20%float) in
  map (fun k => (q_dem (c_out (A k)), q_dem (c_out (B k)))) [0; 1; 2; 3; 4; 9]%nat =
  [(false, true); (true, true); (true, false); (true, false); (true, false); (true, false)].
Proof. vm_compute. reflexivity. Qed.

(** ** C56: the Supply side transmits its pressure *)

(** With the Supply role forced and the other side's capacitance more than 1.25
    times larger, processOutputs zeroes the pressure to send while staying in
    the Supply role. *)
Theorem C56_supply_pressure_sent_refuted :
  exists (s : fbus (T := float)) pressure energy fr cap,
    let s1 := set_fluid_state s pressure energy fr in
    let s2 := process_outputs cap s1 in
    in_demand s2 = false /\ b_force s2 = RSupply /\
    p_src (b_out s1) = pressure /\ p_src (b_out s2) <> pressure.
Proof.
  exists {| b_in := {| p_count := 5; p_loop := 4; p_dem := false; p_cap := 10%float; p_src := 1%float;
                       p_energy := 1%float; p_fr := [] |};
            b_out := {| p_count := 5; p_loop := 4; p_dem := false; p_cap := 1%float; p_src := 1%float;
                       p_energy := 1%float; p_fr := [] |};
            b_last := false; b_since := 10; b_lat := 1; b_force := RSupply; b_master := false; b_notes := [] |},
    100%float, 1%float, [], 1%float.
  cbn zeta. split; [vm_compute; reflexivity|]. split; [vm_compute; reflexivity|].
  split; [vm_compute; reflexivity|]. intros H.
  assert (E : PrimFloat.eqb (p_src (b_out (process_outputs 1%float (set_fluid_state
     {| b_in := {| p_count := 5; p_loop := 4; p_dem := false; p_cap := 10%float; p_src := 1%float;
                       p_energy := 1%float; p_fr := [] |};
            b_out := {| p_count := 5; p_loop := 4; p_dem := false; p_cap := 1%float; p_src := 1%float;
                       p_energy := 1%float; p_fr := [] |};
            b_last := false; b_since := 10; b_lat := 1; b_force := RSupply; b_master := false; b_notes := [] |}
      100%float 1%float [])))) 100%float = false) by (vm_compute; reflexivity).
  rewrite H in E. vm_compute in E. discriminate E.
Qed.
Print Assumptions C56_supply_pressure_sent_refuted.

(** Without a forced Supply role it is transmitted. *)
Theorem C56_supply_pressure_sent_unforced :
  forall {T} {N : Num T} (s : fbus (T := T)) pressure energy fr cap,
  b_force s <> RSupply -> in_demand s = false ->
  let s2 := process_outputs cap (set_fluid_state s pressure energy fr) in
  in_demand s2 = false -> p_src (b_out s2) = pressure /\ p_energy (b_out s2) = energy /\ p_fr (b_out s2) = fr.
Proof.
  intros T N s pr en fr cap Hf Hd. cbn zeta. unfold set_fluid_state. rewrite Hd.
  unfold process_outputs, flip_on_capacitance.
  change (in_demand (set_out (set_out s _) _)) with (in_demand s). rewrite Hd. cbn [negb].
  match goal with |- context [if ?c then _ else _] => destruct c end; [|cbn; auto].
  unfold flip_to_demand. cbn [set_out b_force].
  destruct (b_force s); [|congruence|]; cbn; intros Hc; discriminate Hc.
Qed.
Print Assumptions C56_supply_pressure_sent_unforced.
