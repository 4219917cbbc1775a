(** C157, C158: gas diffusion, and mixtures given in different ways. *)
From Coq Require Import Floats.
From Coq Require Import Reals Lra Lia List Arith Bool ZArith.
From Verif Require Import Num Ord Loops MathUtil Props_Math Spec_Valve Props_Valve Props_Thermal FluidFlow Props_FluidFlow.
Import ListNotations.
Local Open Scope R_scope.

Lemma fold_add (l : list R) : fold_left nadd l n0 = total l.
Proof.
  assert (G : forall a, fold_left nadd l a = a + total l).
  { induction l as [|x l IH]; intro a; cbn [fold_left total fold_right]; [lra|]. rewrite IH. rnum. fold (total l). lra. }
  rewrite G. rnum. lra.
Qed.
Lemma total_scale (k : R) l : total (map (fun x => k * x) l) = k * total l.
Proof. induction l as [|x l IH]; cbn [map total fold_right]; [lra|]. fold (total l). fold (total (map (fun x => k * x) l)). rewrite IH. ring. Qed.
Lemma total_nonneg l : Forall (fun x => 0 <= x) l -> 0 <= total l.
Proof. induction 1 as [|x l H _ IH]; cbn [total fold_right]; [lra|]. fold (total l). lra. Qed.

(** ** C157: diffusion *)
Notation diffR := (diffusion sqrt).
(** The sums of the fluxes forward and backward. *)
Definition forward (l : list R) : R := total (map (fun f => Rmax 0 f) l).
Definition backward (l : list R) : R := total (map (fun f => Rmin 0 f) l).
Lemma flux_sumsR (l : list R) : flux_sums l = (forward l, backward l).
Proof.
  assert (G : forall s : R * R, fold_left (fun s f => if n0 <=~ f then (fst s +~ f, snd s) else (fst s, snd s +~ f)) l s = (fst s + forward l, snd s + backward l)).
  { unfold forward, backward. induction l as [|x l IH]; intros [u v]; cbn [fold_left map total fold_right fst snd]; [f_equal; lra|].
    rewrite IH. fold (total (map (fun f => Rmax 0 f) l)). fold (total (map (fun f => Rmin 0 f) l)).
    change (n0 <=~ x) with (Rleb 0 x). destruct (Rleb_spec 0 x); cbn [fst snd]; rnum.
    - rewrite Rmax_right, Rmin_left by lra. f_equal; lra.
    - rewrite Rmax_left, Rmin_right by lra. f_equal; lra. }
  unfold flux_sums. rewrite G. cbn [fst snd]. rnum. f_equal; lra.
Qed.
Lemma forward_nonneg l : 0 <= forward l.
Proof. apply total_nonneg. apply Forall_forall. intros x H. apply in_map_iff in H. destruct H as (y & <- & _). apply Rmax_l. Qed.
Lemma backward_nonpos l : backward l <= 0.
Proof.
  unfold backward. induction l as [|x l IH]; cbn [map total fold_right]; [lra|]. fold (total (map (fun f => Rmin 0 f) l)). pose proof (Rmin_l 0 x). lra.
Qed.

(** What is left of diffusion against a bulk flow. *)
Definition left_over (area bulk pos neg mw0 mw1 : R) : R :=
  if Rlt_dec 0 area then
    if Rlt_dec 0 bulk then (if Rlt_dec neg 0 then (if Req_EM_T mw0 0 then 1 else within 0 ((neg + bulk / mw0 / area) / neg) 1) else 1)
    else if Rlt_dec bulk 0 then (if Rlt_dec 0 pos then (if Req_EM_T mw1 0 then 1 else within 0 ((pos + bulk / mw1 / area) / pos) 1) else 1)
    else 1
  else 1.
Lemma div_sign_neg x y : y < 0 -> 0 < x -> x / y <= 0.
Proof. intros A B. unfold Rdiv. pose proof (Rinv_lt_0_compat y A). pose proof (Rmult_lt_0_compat x (- / y)). lra. Qed.
Lemma div_sign_neg' x y : 0 < y -> x < 0 -> x / y <= 0.
Proof. intros A B. unfold Rdiv. pose proof (Rinv_0_lt_compat y A). pose proof (Rmult_lt_0_compat (- x) (/ y)). lra. Qed.
Lemma flux_ratioR area bulk pos neg mw0 mw1 : flux_ratio area bulk pos neg mw0 mw1 = left_over area bulk pos neg mw0 mw1.
Proof.
  unfold flux_ratio, left_over. change (n0 <~ area) with (Rltb 0 area). change (n0 <~ bulk) with (Rltb 0 bulk). change (bulk <~ n0) with (Rltb bulk 0).
  change (neg <~ n0) with (Rltb neg 0). change (n0 <~ pos) with (Rltb 0 pos). change (mw0 ==~ n0) with (Reqb mw0 0). change (mw1 ==~ n0) with (Reqb mw1 0).
  destruct (Rltb_spec 0 area), (Rlt_dec 0 area); try lra; [|reflexivity].
  destruct (Rltb_spec 0 bulk) as [B|B], (Rlt_dec 0 bulk) as [B'|B']; try lra; cbn [andb].
  - destruct (Rltb_spec neg 0) as [C|C], (Rlt_dec neg 0) as [C'|C']; try lra; cbn [andb].
    + destruct (Reqb_spec mw0 0) as [D|D], (Req_EM_T mw0 0) as [D'|D']; try contradiction; cbn [negb].
      * destruct (Rltb_spec bulk 0); [lra|]. reflexivity.
      * rewrite limit_within by (rnum; lra). rewrite nminR. rnum. unfold within. unfold Rmin at 2. destruct (Rle_dec 0 (neg + bulk / mw0 / area)) as [Q|Q]; [|reflexivity].
        unfold Rdiv at 1. rewrite Rmult_0_l. rewrite Rmin_left by lra. rewrite Rmax_left by lra.
        destruct Q as [Q|Q]; [pose proof (div_sign_neg _ neg C Q)|rewrite <- Q; unfold Rdiv; rewrite Rmult_0_l]; rewrite Rmin_left by lra; rewrite Rmax_left by lra; reflexivity.
    + destruct (Rltb_spec bulk 0); [lra|]. reflexivity.
  - destruct (Rltb_spec bulk 0) as [E|E], (Rlt_dec bulk 0) as [E'|E']; try lra; cbn [andb]; [|reflexivity].
    destruct (Rltb_spec 0 pos) as [C|C], (Rlt_dec 0 pos) as [C'|C']; try lra; cbn [andb]; [|reflexivity].
    destruct (Reqb_spec mw1 0) as [D|D], (Req_EM_T mw1 0) as [D'|D']; try contradiction; cbn [negb]; [reflexivity|].
    rewrite limit_within by (rnum; lra). rewrite nmaxR. rnum. unfold within. unfold Rmax at 2. destruct (Rle_dec 0 (pos + bulk / mw1 / area)) as [Q|Q]; [reflexivity|].
    unfold Rdiv at 1. rewrite Rmult_0_l. rewrite Rmin_left by lra. rewrite Rmax_left by lra.
    pose proof (div_sign_neg' (pos + bulk / mw1 / area) pos C ltac:(lra)). rewrite Rmin_left by lra. rewrite Rmax_left by lra. reflexivity.
Qed.
Lemma left_over_range area bulk pos neg mw0 mw1 : 0 <= left_over area bulk pos neg mw0 mw1 <= 1.
Proof.
  assert (W : forall x, 0 <= within 0 x 1 <= 1) by (intro x; unfold within, Rmin, Rmax; destruct (Rle_dec x 1); destruct (Rle_dec _ _); lra).
  unfold left_over. repeat match goal with |- context [if ?c then _ else _] => destruct c end; try lra; apply W.
Qed.
(** The diffusion coefficient over the length, times the mean molar density: what a difference of
    mole fractions is multiplied by.  It is positive whatever the fluids' states with warm nodes. *)
Definition mobility (a b : @fl R) (l0 l1 : R) : R :=
  diffusivity sqrt a b l0 l1 (1 / (l0 + l1)) * molar_density a b l0 l1 (1 / (l0 + l1)) / (l0 + l1).
Lemma mobility_pos (a b : @fl R) l0 l1 : 0 < d_t a -> 0 < d_t b -> 0 < l0 -> 0 < l1 -> 0 < mobility a b l0 l1.
Proof.
  intros Ta Tb L0 L1. unfold mobility, diffusivity, molar_density. rewrite !nmaxR. pose proof Reps_pos as E0.
  assert (I : 0 < 1 / (l0 + l1)) by (apply Rdiv_lt_0_compat; lra). assert (I' : 0 < / (l0 + l1)) by (apply Rinv_0_lt_compat; lra).
  assert (F : 0 < (feps : R)) by (unfold feps; rnum; unfold Rdec; apply Rdiv_lt_0_compat; apply IZR_lt; reflexivity).
  assert (LB : 0 < (lambda_base : R)).
  { unfold lambda_base. rewrite kpaR. rnum. unfold Rdec. apply Rdiv_lt_0_compat; [apply Rdiv_lt_0_compat; apply IZR_lt; reflexivity|].
    apply Rmult_lt_0_compat; [lra|]. apply Rdiv_lt_0_compat; apply IZR_lt; reflexivity. }
  assert (C1 : 0 < (ndec 3000 0 *~ gas_const : R)). { unfold gas_const. rnum. unfold Rdec. apply Rmult_lt_0_compat; [apply IZR_lt; reflexivity|]. apply Rdiv_lt_0_compat; apply IZR_lt; reflexivity. }
  assert (C3 : 0 < (ndec 3 0 : R)) by (rnum; unfold Rdec; apply IZR_lt; reflexivity).
  assert (M1 : forall x, 0 < Rmax Reps x) by (intro x; pose proof (Rmax_l Reps x); lra).
  assert (M2 : forall x, 0 < Rmax x feps) by (intro x; pose proof (Rmax_r x feps); lra).
  rnum. apply Rmult_lt_0_compat; [|exact I']. apply Rmult_lt_0_compat; [|apply M1].
  apply Rdiv_lt_0_compat; [|exact C3]. apply Rmult_lt_0_compat.
  - apply Rmult_lt_0_compat; [|exact I]. apply Rmult_lt_0_compat; [exact LB|].
    apply Rplus_lt_0_compat; apply Rmult_lt_0_compat; try assumption; apply Rdiv_lt_0_compat; auto.
  - apply sqrt_lt_R0. apply Rdiv_lt_0_compat; [|apply M1]. apply Rmult_lt_0_compat; [exact C1|apply M1].
Qed.

(** What each constituent's flow is: its difference of mole fractions times one factor, of the
    same sign for all, times its molecular weight. *)
Definition drift (a b : @fl R) l0 l1 (c : @sp R) : R := mobility a b l0 l1 * (s_x0 c - s_x1 c).
Lemma flux_drift (a b : @fl R) l0 l1 (c : @sp R) : l0 + l1 <> 0 ->
  diff_flux (diffusivity sqrt a b l0 l1 (1 / (l0 + l1))) (molar_density a b l0 l1 (1 / (l0 + l1))) (1 / (l0 + l1)) c = drift a b l0 l1 c.
Proof. intro L. unfold diff_flux, drift, mobility. rnum. field. exact L. Qed.
Theorem C157_fick : forall area (a b : @fl R) cs bulk l0 l1,
  (l0 + l1 <= Reps -> diffR area a b cs bulk l0 l1 = None) /\
  (Reps < l0 + l1 -> exists ms net t r, diffR area a b cs bulk l0 l1 = Some (ms, net, t) /\
    ms = map (fun c => r * (drift a b l0 l1 c * s_mw c)) cs /\ net = area * total ms /\
    t = (if Rlt_dec 0 net then d_t b else d_t a) /\ 0 <= r <= 1 /\ (bulk = 0 -> r = 1) /\
    r = left_over area bulk (forward (map (drift a b l0 l1) cs)) (backward (map (drift a b l0 l1) cs)) (d_mw a) (d_mw b)).
Proof.
  intros area a b cs bulk l0 l1. unfold diffusion. change (l0 +~ l1 <=~ neps) with (Rleb (l0 + l1) Reps).
  split; intro H; destruct (Rleb_spec (l0 + l1) Reps) as [Q|Q]; try lra; [reflexivity|]. pose proof Reps_pos as E0.
  assert (E : forall c, diff_flux (diffusivity sqrt a b l0 l1 (n1 /~ (l0 +~ l1))) (molar_density a b l0 l1 (n1 /~ (l0 +~ l1))) (n1 /~ (l0 +~ l1)) c = drift a b l0 l1 c).
  { intro c. apply flux_drift. lra. }
  rewrite (map_ext _ _ E). rewrite flux_sumsR, flux_ratioR.
  set (r := left_over _ _ _ _ _ _).
  assert (Em : map (fun c => diff_flux (diffusivity sqrt a b l0 l1 (n1 /~ (l0 +~ l1))) (molar_density a b l0 l1 (n1 /~ (l0 +~ l1))) (n1 /~ (l0 +~ l1)) c *~ s_mw c *~ r) cs =
               map (fun c => r * (drift a b l0 l1 c * s_mw c)) cs).
  { apply map_ext. intro c. rewrite E. rnum. ring. }
  rewrite Em. rewrite fold_add. eexists _, _, _, r. split; [reflexivity|]. split; [reflexivity|]. split; [rnum; ring|].
  split; [|split; [apply left_over_range|split; [|reflexivity]]].
  - change (n0 <~ total (map (fun c : sp => r * (drift a b l0 l1 c * s_mw c)) cs) *~ area) with (Rltb 0 (total (map (fun c : sp => r * (drift a b l0 l1 c * s_mw c)) cs) * area)).
    destruct (Rltb_spec 0 (total (map (fun c : sp => r * (drift a b l0 l1 c * s_mw c)) cs) * area)) as [P|P];
    change (total (map (fun c : sp => r * (drift a b l0 l1 c * s_mw c)) cs) *~ area) with (total (map (fun c : sp => r * (drift a b l0 l1 c * s_mw c)) cs) * area);
    destruct (Rlt_dec _ _); reflexivity || contradiction || (exfalso; lra).
  - intros ->. unfold r, left_over. destruct (Rlt_dec 0 area); [|reflexivity]. destruct (Rlt_dec 0 0); lra.
Qed.
Print Assumptions C157_fick.

(** A constituent moves to where its fraction is lower; equal mixtures exchange nothing; the moles
    that cross one way equal those that cross the other. *)
Theorem C157_balance : forall area (a b : @fl R) cs bulk l0 l1 ms net t,
  0 < d_t a -> 0 < d_t b -> 0 < l0 -> 0 < l1 -> Forall (fun c => 0 < s_mw c) cs ->
  diffR area a b cs bulk l0 l1 = Some (ms, net, t) ->
  Forall2 (fun c m => 0 <= m * (s_x0 c - s_x1 c)) cs ms /\
  (Forall (fun c => s_x0 c = s_x1 c) cs -> Forall (fun m => m = 0) ms /\ net = 0) /\
  (total (map s_x0 cs) = total (map s_x1 cs) -> total (map (fun p => snd p / s_mw (fst p)) (combine cs ms)) = 0).
Proof.
  intros area a b cs bulk l0 l1 ms net t Ta Tb L0 L1 W D. pose proof Reps_pos as E0.
  destruct (C157_fick area a b cs bulk l0 l1) as [N F]. destruct (Rle_dec (l0 + l1) Reps) as [Q|Q]; [rewrite N in D by exact Q; discriminate|].
  destruct F as (ms' & net' & t' & r & E & Ms & Nt & _ & Rr & _); [lra|]. rewrite E in D. injection D as <- <- <-. subst ms'.
  pose proof (mobility_pos a b l0 l1 Ta Tb L0 L1) as M. unfold drift in *. set (k := mobility a b l0 l1) in *. clearbody k. subst net'. clear E N.
  split; [|split].
  - induction W as [|c cs Wc Wr IH]; cbn [map]; constructor; [|apply IH]. set (d := s_x0 c - s_x1 c).
    replace (r * (k * d * s_mw c) * d) with (r * (k * s_mw c) * Rsqr d) by (unfold Rsqr; ring). apply Rmult_le_pos; [|apply Rle_0_sqr].
    apply Rmult_le_pos; [lra|]. apply Rmult_le_pos; lra.
  - intro Eq. assert (Z : Forall (fun m => m = 0) (map (fun c => r * (k * (s_x0 c - s_x1 c) * s_mw c)) cs)).
    { clear W. induction Eq as [|c cs Hc _ IH]; cbn [map]; constructor; [rewrite Hc; ring|exact IH]. }
    split; [exact Z|]. assert (T0 : total (map (fun c => r * (k * (s_x0 c - s_x1 c) * s_mw c)) cs) = 0).
    { induction Z as [|x l Hx _ IH]; cbn [total fold_right]; [reflexivity|]. fold (total l). rewrite Hx, IH. lra. }
    rewrite T0. ring.
  - intro Eq. assert (G : total (map (fun p => snd p / s_mw (fst p)) (combine cs (map (fun c => r * (k * (s_x0 c - s_x1 c) * s_mw c)) cs))) = r * k * (total (map s_x0 cs) - total (map s_x1 cs))).
    { clear Eq. induction W as [|c cs Wc _ IH]; cbn [map combine total fold_right fst snd]; [ring|].
      fold (total (map s_x0 cs)). fold (total (map s_x1 cs)). fold (total (map (fun p : sp * R => snd p / s_mw (fst p)) (combine cs (map (fun c => r * (k * (s_x0 c - s_x1 c) * s_mw c)) cs)))).
      rewrite IH. field. lra. }
    rewrite G, Eq. ring.
Qed.
Print Assumptions C157_balance.

(** Bulk flow against diffusion: what diffuses upstream is what exceeds the bulk flow, and nothing
    diffuses at all when the bulk flow is the greater. *)
Theorem C157_bulk : forall area bulk pos neg mw0 mw1, 0 < area -> 0 < mw0 -> 0 < mw1 -> neg <= 0 <= pos ->
  let r := left_over area bulk pos neg mw0 mw1 in
  (0 < bulk -> neg < 0 -> area * (r * neg) = Rmin 0 (area * neg + bulk / mw0)) /\
  (bulk < 0 -> 0 < pos -> area * (r * pos) = Rmax 0 (area * pos + bulk / mw1)) /\
  (0 <= bulk -> neg = 0 -> r = 1) /\ (bulk <= 0 -> pos = 0 -> r = 1).
Proof.
  intros area bulk pos neg mw0 mw1 A W0 W1 S. cbv zeta. unfold left_over. destruct (Rlt_dec 0 area); [|lra].
  split; [|split; [|split]].
  - intros B C. destruct (Rlt_dec 0 bulk); [|lra]. destruct (Rlt_dec neg 0); [|lra]. destruct (Req_EM_T mw0 0); [lra|].
    set (x := bulk / mw0). assert (X : 0 < x) by (apply Rdiv_lt_0_compat; lra). clearbody x.
    replace ((neg + x / area) / neg) with (1 + x / (area * neg)) by (field; lra).
    assert (P : 0 < x / (area * - neg)) by (apply Rdiv_lt_0_compat; [exact X|apply Rmult_lt_0_compat; lra]).
    assert (K : x / (area * neg) = - (x / (area * - neg))) by (field; lra). rewrite K.
    assert (K2 : area * - neg * (x / (area * - neg)) = x) by (field; lra).
    set (y := x / (area * - neg)) in *. clearbody y. unfold within. rewrite (Rmin_left _ 1) by lra.
    unfold Rmax, Rmin. destruct (Rle_dec 0 (1 + - y)) as [Q|Q], (Rle_dec 0 (area * neg + x)) as [Q'|Q'].
    + assert (1 + - y = 0). { assert (area * neg + x = area * neg * (1 - y)) by lra. assert (0 <= (1 - y) * (area * - neg)) by (apply Rmult_le_pos; [lra|]; apply Rmult_le_pos; lra).
        assert (Z : (1 - y) * (area * - neg) = 0) by lra. apply Rmult_integral in Z. destruct Z as [Z|Z]; [lra|]. pose proof (Rmult_lt_0_compat area (- neg)). lra. }
      rewrite H. ring.
    + lra.
    + ring.
    + exfalso. pose proof (Rmult_lt_0_compat (y - 1) (area * - neg) ltac:(lra) ltac:(apply Rmult_lt_0_compat; lra)). lra.
  - intros B C. destruct (Rlt_dec 0 bulk); [lra|]. destruct (Rlt_dec bulk 0); [|lra]. destruct (Rlt_dec 0 pos); [|lra]. destruct (Req_EM_T mw1 0); [lra|].
    set (x := bulk / mw1). assert (X : 0 < - x). { unfold x. replace (- (bulk / mw1)) with ((- bulk) / mw1) by (field; lra). apply Rdiv_lt_0_compat; lra. } clearbody x.
    replace ((pos + x / area) / pos) with (1 - (- x) / (area * pos)) by (field; lra).
    assert (P : 0 < (- x) / (area * pos)) by (apply Rdiv_lt_0_compat; [exact X|apply Rmult_lt_0_compat; lra]).
    assert (K2 : area * pos * ((- x) / (area * pos)) = - x) by (field; lra).
    set (y := (- x) / (area * pos)) in *. clearbody y. unfold within. rewrite (Rmin_left _ 1) by lra.
    unfold Rmax. destruct (Rle_dec 0 (1 - y)) as [Q|Q], (Rle_dec 0 (area * pos + x)) as [Q'|Q'].
    + lra.
    + exfalso. pose proof (Rmult_le_pos (1 - y) (area * pos) ltac:(lra) ltac:(apply Rmult_le_pos; lra)). lra.
    + exfalso. pose proof (Rmult_lt_0_compat (y - 1) (area * pos) ltac:(lra) ltac:(apply Rmult_lt_0_compat; lra)). lra.
    + ring.
  - intros B Z. subst neg. destruct (Rlt_dec 0 bulk).
    + destruct (Rlt_dec 0 0); [lra|reflexivity].
    + destruct (Rlt_dec bulk 0); [lra|reflexivity].
  - intros B Z. subst pos. destruct (Rlt_dec 0 bulk); [lra|]. destruct (Rlt_dec bulk 0); [|reflexivity]. destruct (Rlt_dec 0 0); [lra|reflexivity].
Qed.
Print Assumptions C157_bulk.

(** What reaches the other node: each constituent's own flow, when the net flow is enough to be
    transported. *)
Lemma carried_eq (rate : R) xs : carried rate xs = if Rlt_dec (100 * Reps) (Rabs rate) then map (fun x => rate * x) xs else map (fun _ => 0) xs.
Proof.
  unfold carried. rewrite hundred_eps. change (100 * Reps <~ rate) with (Rltb (100 * Reps) rate). change (rate <~ nopp (100 * Reps)) with (Rltb rate (- (100 * Reps))).
  pose proof Reps_pos as E0. unfold Rabs. destruct (Rcase_abs rate) as [Q|Q].
  - rewrite Rltb_false by lra. cbn [orb]. destruct (Rltb_spec rate (- (100 * Reps))), (Rlt_dec (100 * Reps) (- rate)); try lra; reflexivity.
  - rewrite (Rltb_false rate) by lra. rewrite orb_false_r. destruct (Rltb_spec (100 * Reps) rate), (Rlt_dec (100 * Reps) rate); try lra; reflexivity.
Qed.
Theorem C157_carried : forall area (ms : list R), 0 < area <= 100 -> 100 * Reps < Rabs (area * total ms) ->
  carried (area * total ms) (fractions ms) = map (fun m => area * m) ms.
Proof.
  intros area ms A H. rewrite carried_eq. destruct (Rlt_dec (100 * Reps) (Rabs (area * total ms))); [|lra].
  unfold fractions. rewrite fold_add. rewrite map_map. pose proof Reps_pos as E0.
  assert (B : Reps < Rabs (total ms)).
  { rewrite Rabs_mult, (Rabs_right area) in H by lra. pose proof (Rabs_pos (total ms)) as P.
    destruct (Rlt_dec Reps (Rabs (total ms))) as [Y|Y]; [exact Y|]. pose proof (Rmult_le_compat area 100 (Rabs (total ms)) Reps ltac:(lra) P ltac:(lra) ltac:(lra)). lra. }
  assert (I : inner_limit (nopp neps) (total ms) neps = total ms).
  { unfold inner_limit. change (nopp neps <~ total ms) with (Rltb (- Reps) (total ms)). change (total ms <~ neps) with (Rltb (total ms) Reps).
    destruct (Rltb_spec (- Reps) (total ms)), (Rltb_spec (total ms) Reps); cbn [andb]; try reflexivity. exfalso. revert B. unfold Rabs. destruct (Rcase_abs _); lra. }
  rewrite I. apply map_ext. intro m. rnum. field. intro Z. rewrite Z, Rabs_R0 in B. lra.
Qed.
Print Assumptions C157_carried.
Example C157_carried_nonvacuous : exists area (ms : list R), 0 < area <= 100 /\ 100 * Reps < Rabs (area * total ms).
Proof. exists 1, [1; 1]. pose proof Reps_small. split; [lra|]. cbn. rewrite Rabs_right; lra. Qed.

(** A net flow of zero carries nothing, though every constituent diffuses: three gases whose flows
    balance in mass keep their different mixtures for ever. *)
Definition trio : list (@sp R) := [mksp (5/10) (2/10) 28; mksp (2/10) (6/10) 32; mksp (3/10) (2/10) 44].
Theorem C157_stall_refuted : exists (a b : @fl R) area ms net t,
  0 < d_t a /\ 0 < d_t b /\ 0 < area /\
  diffR area a b trio 0 1 1 = Some (ms, net, t) /\ Forall (fun m => m <> 0) ms /\ net = 0 /\
  carried net (fractions ms) = [0; 0; 0].
Proof.
  set (f := gasAt 100 30). pose proof Reps_pos as E0. pose proof Reps_small as E1.
  destruct (C157_fick 1 f f trio 0 1 1) as [_ F]. destruct F as (ms & net & t & r & E & Ms & Nt & _ & _ & R1 & _); [lra|]. specialize (R1 eq_refl). subst r.
  exists f, f, 1, ms, net, t. split; [cbn; lra|]. split; [cbn; lra|]. split; [lra|]. split; [exact E|].
  pose proof (mobility_pos f f 1 1 ltac:(cbn; lra) ltac:(cbn; lra) ltac:(lra) ltac:(lra)) as M.
  unfold trio, drift in Ms. cbn [map s_x0 s_x1 s_mw] in Ms. set (k := mobility f f 1 1) in *. clearbody k.
  assert (Z : net = 0). { rewrite Nt, Ms. cbn [total fold_right]. lra. }
  split; [|split; [exact Z|]].
  - rewrite Ms. repeat constructor; lra.
  - rewrite carried_eq, Z, Rabs_R0. destruct (Rlt_dec (100 * Reps) 0); [lra|]. rewrite Ms. reflexivity.
Qed.
Print Assumptions C157_stall_refuted.

(** ** C158: mixtures *)
Lemma nth_map0 {A} (f : A -> R) (l : list A) i d : (i < length l)%nat -> nth i (map f l) 0 = f (nth i l d).
Proof. intro I. rewrite nth_indep with (d' := f d) by (rewrite map_length; exact I). apply map_nth. Qed.
Definition products (xs ws : list R) : list R := map (fun p => fst p * snd p) (combine xs ws).
Definition quotients (xs ws : list R) : list R := map (fun p => fst p / snd p) (combine xs ws).
Lemma m2mR out (xs ws : list R) : mole_to_mass out xs ws = if Rle_dec Reps (total (products xs ws)) then map (fun y => y / total (products xs ws)) (products xs ws) else out.
Proof.
  unfold mole_to_mass, scaled. rewrite fold_add. change (map (fun p => fst p *~ snd p) (combine xs ws)) with (products xs ws).
  change (neps <=~ total (products xs ws)) with (Rleb Reps (total (products xs ws))).
  destruct (Rleb_spec Reps (total (products xs ws))), (Rle_dec Reps (total (products xs ws))); try lra; reflexivity.
Qed.
Lemma m2nR out (xs ws : list R) : mass_to_mole out xs ws = if Rle_dec Reps (total (quotients xs ws)) then map (fun y => y / total (quotients xs ws)) (quotients xs ws) else out.
Proof.
  unfold mass_to_mole, scaled. rewrite fold_add. change (map (fun p => fst p /~ snd p) (combine xs ws)) with (quotients xs ws).
  change (neps <=~ total (quotients xs ws)) with (Rleb Reps (total (quotients xs ws))).
  destruct (Rleb_spec Reps (total (quotients xs ws))), (Rle_dec Reps (total (quotients xs ws))); try lra; reflexivity.
Qed.
Lemma total_div (l : list R) s : total (map (fun y => y / s) l) = total l / s.
Proof. induction l as [|x l IH]; cbn [map total fold_right]; [unfold Rdiv; ring|]. fold (total l). fold (total (map (fun y => y / s) l)). rewrite IH. unfold Rdiv. ring. Qed.
(** Mass fractions are the mole fractions weighted by molecular weight, and add up to one; an empty
    mixture leaves the output as it was. *)
Theorem C158_fractions : forall out (xs ws : list R),
  (Reps <= total (products xs ws) ->
     total (mole_to_mass out xs ws) = 1 /\
     forall i, (i < length xs)%nat -> length ws = length xs ->
       nth i (mole_to_mass out xs ws) 0 * total (products xs ws) = nth i xs 0 * nth i ws 0) /\
  (Reps <= total (quotients xs ws) ->
     total (mass_to_mole out xs ws) = 1 /\
     forall i, (i < length xs)%nat -> length ws = length xs ->
       nth i (mass_to_mole out xs ws) 0 * total (quotients xs ws) = nth i xs 0 / nth i ws 0) /\
  (total (products xs ws) < Reps -> mole_to_mass out xs ws = out) /\
  (total (quotients xs ws) < Reps -> mass_to_mole out xs ws = out).
Proof.
  intros out xs ws. pose proof Reps_pos as E0. rewrite m2mR, m2nR.
  assert (Np : forall i, (i < length xs)%nat -> length ws = length xs -> nth i (products xs ws) 0 = nth i xs 0 * nth i ws 0).
  { intros i I L. unfold products. rewrite nth_map0 with (d := (0, 0)) by (rewrite combine_length; lia). rewrite combine_nth by (symmetry; exact L). reflexivity. }
  assert (Nq : forall i, (i < length xs)%nat -> length ws = length xs -> nth i (quotients xs ws) 0 = nth i xs 0 / nth i ws 0).
  { intros i I L. unfold quotients. rewrite nth_map0 with (d := (0, 0)) by (rewrite combine_length; lia). rewrite combine_nth by (symmetry; exact L). reflexivity. }
  assert (Nd : forall l s i, nth i (map (fun y => y / s) l) 0 = nth i l 0 / s).
  { intros l s i. rewrite <- (map_nth (fun y => y / s)). f_equal. unfold Rdiv. ring. }
  split; [|split; [|split]].
  - intro H. destruct (Rle_dec Reps (total (products xs ws))); [|lra]. split; [rewrite total_div; field; lra|].
    intros i I L. rewrite Nd, Np by assumption. field. lra.
  - intro H. destruct (Rle_dec Reps (total (quotients xs ws))); [|lra]. split; [rewrite total_div; field; lra|].
    intros i I L. rewrite Nd, Nq by assumption. generalize (nth i xs 0 / nth i ws 0). intro. field. lra.
  - intro H. destruct (Rle_dec Reps (total (products xs ws))); [lra|reflexivity].
  - intro H. destruct (Rle_dec Reps (total (quotients xs ws))); [lra|reflexivity].
Qed.
Print Assumptions C158_fractions.

(** Converting there and back gives the mixture again, when it added up to one. *)
Lemma quot_prod xs ws s : length ws = length xs -> Forall (fun w => 0 < w) ws -> s <> 0 ->
  quotients (map (fun y => y / s) (products xs ws)) ws = map (fun x => x / s) xs.
Proof.
  unfold products, quotients. revert ws. induction xs as [|x xs IH]; intros [|w ws] L F S; try discriminate; [reflexivity|].
  cbn [combine map fst snd]. inversion F; subst. f_equal; [field; lra|]. apply IH; [cbn in L; lia|assumption|exact S].
Qed.
Lemma prod_quot xs ws s : length ws = length xs -> Forall (fun w => 0 < w) ws -> s <> 0 ->
  products (map (fun y => y / s) (quotients xs ws)) ws = map (fun x => x / s) xs.
Proof.
  unfold products, quotients. revert ws. induction xs as [|x xs IH]; intros [|w ws] L F S; try discriminate; [reflexivity|].
  cbn [combine map fst snd]. inversion F; subst. f_equal; [field; lra|]. apply IH; [cbn in L; lia|assumption|exact S].
Qed.
Lemma rescale (xs : list R) s : total xs = 1 -> s <> 0 -> map (fun y => y / total (map (fun x => x / s) xs)) (map (fun x => x / s) xs) = xs.
Proof.
  intros T S. rewrite total_div, T, map_map. rewrite <- (map_id xs) at 2. apply map_ext. intro x. field. exact S.
Qed.
Lemma inv_eps s : 0 < s <= / Reps -> Reps <= 1 / s.
Proof. intros [H1 H2]. pose proof Reps_pos as E. apply Rmult_le_reg_r with s; [exact H1|]. unfold Rdiv. rewrite Rmult_assoc, Rinv_l by lra.
  pose proof (Rmult_le_compat_l Reps s (/ Reps) ltac:(lra) H2). rewrite Rinv_r in H by lra. lra. Qed.
Theorem C158_round_trip : forall o1 o2 (xs ws : list R), length ws = length xs -> Forall (fun w => 0 < w) ws -> total xs = 1 ->
  (Reps <= total (products xs ws) <= / Reps -> mass_to_mole o2 (mole_to_mass o1 xs ws) ws = xs) /\
  (Reps <= total (quotients xs ws) <= / Reps -> mole_to_mass o2 (mass_to_mole o1 xs ws) ws = xs).
Proof.
  intros o1 o2 xs ws L F T. pose proof Reps_pos as E0. split; intro H.
  - rewrite m2mR. destruct (Rle_dec Reps (total (products xs ws))); [|lra]. rewrite m2nR, quot_prod by (assumption || lra).
    rewrite total_div, T. pose proof (inv_eps (total (products xs ws)) ltac:(lra)). destruct (Rle_dec _ _); [|contradiction].
    rewrite map_map. rewrite <- (map_id xs) at 2. apply map_ext. intro x. field. lra.
  - rewrite m2nR. destruct (Rle_dec Reps (total (quotients xs ws))); [|lra]. rewrite m2mR, prod_quot by (assumption || lra).
    rewrite total_div, T. pose proof (inv_eps (total (quotients xs ws)) ltac:(lra)). destruct (Rle_dec _ _); [|contradiction].
    rewrite map_map. rewrite <- (map_id xs) at 2. apply map_ext. intro x. field. lra.
Qed.
Print Assumptions C158_round_trip.
Example C158_round_trip_nonvacuous : exists xs ws : list R, length ws = length xs /\ Forall (fun w => 0 < w) ws /\ total xs = 1 /\
  Reps <= total (products xs ws) <= / Reps /\ Reps <= total (quotients xs ws) <= / Reps.
Proof.
  exists [1/2; 1/2], [2; 4]. pose proof Reps_pos as P. pose proof Reps_small as S.
  assert (I : 10 <= / Reps). { replace 10 with (/ / 10) by (field). apply Rinv_le_contravar; lra. }
  split; [reflexivity|]. split; [repeat constructor; lra|]. unfold products, quotients. cbn. repeat split; lra.
Qed.

(** Partial pressures: they add up to the total, and come back. *)
Theorem C158_pressures : forall out (ps xs : list R) p,
  (Reps <= total ps -> mole_to_press (press_to_mole out ps) (total ps) = ps /\ total (press_to_mole out ps) = 1) /\
  (total ps < Reps -> press_to_mole out ps = out) /\
  (total xs = 1 -> total (mole_to_press xs p) = p /\ (Reps <= p -> press_to_mole out (mole_to_press xs p) = xs)).
Proof.
  intros out ps xs p. pose proof Reps_pos as E0.
  assert (E : forall l, press_to_mole out l = if Rle_dec Reps (total l) then map (fun y => y / total l) l else out).
  { intro l. unfold press_to_mole, scaled. rewrite fold_add. change (neps <=~ total l) with (Rleb Reps (total l)).
    destruct (Rleb_spec Reps (total l)), (Rle_dec Reps (total l)); try lra; reflexivity. }
  assert (T : total xs = 1 -> total (mole_to_press xs p) = p).
  { intro H. unfold mole_to_press. rewrite (map_ext _ (fun x => p * x)) by (intro; rnum; ring). rewrite total_scale, H. ring. }
  split; [|split].
  - intro H. rewrite E. destruct (Rle_dec Reps (total ps)); [|lra]. split; [|rewrite total_div; field; lra].
    unfold mole_to_press. rewrite map_map. rewrite <- (map_id ps) at 2. apply map_ext. intro x. rnum. field. lra.
  - intro H. rewrite E. destruct (Rle_dec Reps (total ps)); [lra|reflexivity].
  - intro H. split; [exact (T H)|]. intro P. rewrite E, (T H). destruct (Rle_dec Reps p); [|lra].
    unfold mole_to_press. rewrite map_map. rewrite <- (map_id xs) at 2. apply map_ext. intro x. rnum. field. lra.
Qed.
Print Assumptions C158_pressures.

(** The map from one list of fluid types to another: every type goes to its own place, or to the
    conversion type's, or nowhere; there is no map without any entry. *)
Lemma find_some t ts k j : find_type t ts k = Some j -> (k <= j)%nat /\ (j - k < length ts)%nat /\ nth (j - k) ts 0%nat = t /\ In t ts.
Proof.
  revert k. induction ts as [|u ts IH]; intro k; cbn [find_type]; [discriminate|]. destruct (Nat.eqb_spec t u) as [E|E].
  - intro H. injection H as <-. rewrite Nat.sub_diag. cbn. repeat split; auto; lia.
  - intro H. destruct (IH _ H) as (A & B & C & D). replace (j - k)%nat with (S (j - S k)) by lia. cbn. repeat split; auto; lia.
Qed.
Lemma find_none t ts k : find_type t ts k = None <-> ~ In t ts.
Proof.
  revert k. induction ts as [|u ts IH]; intro k; cbn [find_type In]; [tauto|]. destruct (Nat.eqb_spec t u) as [E|E].
  - split; [discriminate|]. intros H. exfalso. apply H. left. congruence.
  - rewrite IH. split; [intros H [X|X]; [congruence|auto]|tauto].
Qed.
Definition goes (outs : list nat) (conv : option nat) (t : nat) (e : option nat) : Prop :=
  (In t outs -> exists j, e = Some j /\ (j < length outs)%nat /\ nth j outs 0%nat = t) /\
  (~ In t outs -> match conv with Some c => exists j, e = Some j /\ (j < length outs)%nat /\ nth j outs 0%nat = c | None => e = None end).
Theorem C158_map : forall ins outs conv,
  match transform_map ins outs conv with
  | Some m => Forall2 (goes outs conv) ins m /\ (exists j, In (Some j) m)
  | None => (exists c, conv = Some c /\ ~ In c outs) \/ ((conv = None \/ ins = []) /\ forall t, In t ins -> ~ In t outs)
  end.
Proof.
  intros ins outs conv. unfold transform_map.
  set (go := map_to ins outs).
  assert (G : forall c, (match conv with Some d => exists j, c = Some j /\ (j < length outs)%nat /\ nth j outs 0%nat = d | None => c = None end) ->
    match go c with Some m => Forall2 (goes outs conv) ins m /\ (exists j, In (Some j) m)
    | None => (conv = None \/ ins = []) /\ forall t, In t ins -> ~ In t outs end).
  { intros c Hc. unfold go, map_to. cbv zeta. set (m := map _ ins).
    assert (F : Forall2 (goes outs conv) ins m).
    { unfold m. clear m go. induction ins as [|t ins IH]; cbn [map]; constructor; [|exact IH]. split.
      - intro I. destruct (find_type t outs 0) eqn:E; [|apply find_none in E; contradiction]. destruct (find_some _ _ _ _ E) as (_ & A & B & _). rewrite Nat.sub_0_r in *. eauto.
      - intro I. destruct (find_type t outs 0) eqn:E; [destruct (find_some _ _ _ _ E) as (_ & _ & _ & A); contradiction|]. exact Hc. }
    destruct (existsb _ m) eqn:X.
    - split; [exact F|]. apply existsb_exists in X. destruct X as ([j|] & I & Y); [eauto|discriminate].
    - assert (Z : forall t, In t ins -> find_type t outs 0 = None /\ c = None).
      { intros t I. assert (Y : In (match find_type t outs 0 with Some j => Some j | None => c end) m) by (unfold m; apply in_map_iff; eauto).
        destruct (find_type t outs 0) as [j|].
        - exfalso. assert (existsb (fun e => match e with Some _ => true | None => false end) m = true) by (apply existsb_exists; eauto). congruence.
        - split; [reflexivity|]. destruct c as [j|]; [|reflexivity]. exfalso.
          assert (existsb (fun e => match e with Some _ => true | None => false end) m = true) by (apply existsb_exists; exists (Some j); auto). congruence. }
      split.
      + destruct conv as [d|]; [|auto]. right. destruct ins as [|t ins]; [reflexivity|]. destruct (Z t (or_introl eq_refl)) as [_ ->]. destruct Hc as (j & Q & _). discriminate.
      + intros t I. apply (find_none t outs 0). apply Z. exact I. }
  destruct conv as [d|].
  - destruct (find_type d outs 0) as [j|] eqn:E.
    + destruct (find_some _ _ _ _ E) as (_ & A & B & _). rewrite Nat.sub_0_r in *. specialize (G (Some j)).
      destruct (go (Some j)); [apply G; eauto|]. right. apply G. eauto.
    + left. exists d. split; [reflexivity|]. apply (find_none d outs 0). exact E.
  - specialize (G None eq_refl). destruct (go None); [exact G|]. right. exact G.
Qed.
Print Assumptions C158_map.
Example C158_map_nonvacuous : transform_map [3; 5; 7]%nat [5; 3]%nat (Some 5%nat) = Some [Some 1; Some 0; Some 0]%nat /\
  transform_map [3; 5; 7]%nat [5; 3]%nat None = Some [Some 1%nat; Some 0%nat; None] /\ transform_map [3]%nat [5]%nat None = None.
Proof. repeat split. Qed.

(** The mixture the receiving fluid is given: a constituent's share is the sum of those sent to it,
    of all that are sent anywhere; nothing sent leaves its mixture. *)
Definition sent (j : nat) (p : option nat * R) : R := match fst p with Some k => if Nat.eqb k j then snd p else 0 | None => 0 end.
Definition sent_any (p : option nat * R) : R := match fst p with Some _ => snd p | None => 0 end.
Lemma add_at_len (l : list R) j x : length (add_at l j x) = length l.
Proof. unfold add_at. rewrite map_length, combine_length, seq_length. lia. Qed.
Lemma add_at_nth (l : list R) j x i : (i < length l)%nat -> nth i (add_at l j x) 0 = nth i l 0 + if Nat.eqb i j then x else 0.
Proof.
  intro I. unfold add_at. rewrite nth_indep with (d' := (fun p : nat * R => if Nat.eqb (fst p) j then snd p +~ x else snd p) (0%nat, 0)) by (rewrite map_length, combine_length, seq_length; lia).
  rewrite (map_nth (fun p : nat * R => if Nat.eqb (fst p) j then snd p +~ x else snd p)), combine_nth by (rewrite seq_length; reflexivity). cbn [fst snd]. rewrite seq_nth by exact I. cbn [Nat.add].
  destruct (Nat.eqb i j); rnum; lra.
Qed.
Lemma acc_nth (ps : list (option nat * R)) : forall (v : list R) s i, (i < length v)%nat ->
  let r := fold_left (fun s p => match fst p with Some j => (add_at (fst s) j (snd p), snd s +~ snd p) | None => s end) ps (v, s) in
  length (fst r) = length v /\ nth i (fst r) 0 = nth i v 0 + total (map (sent i) ps) /\ snd r = s + total (map sent_any ps).
Proof.
  induction ps as [|[e x] ps IH]; intros v s i I; cbn [fold_left map total fold_right fst snd]; [repeat split; lra|].
  fold (total (map (sent i) ps)). fold (total (map sent_any ps)). unfold sent at 1, sent_any at 1. cbn [fst snd].
  destruct e as [j|].
  - destruct (IH (add_at v j x) (s +~ x) i) as (A & B & C); [rewrite add_at_len; exact I|]. cbv zeta in *. rewrite A, B, C, add_at_len, add_at_nth by exact I.
    rewrite (Nat.eqb_sym j i). repeat split; rnum; lra.
  - destruct (IH v s i I) as (A & B & C). cbv zeta in *. rewrite A, B, C. repeat split; lra.
Qed.
Theorem C158_transform : forall (old : list R) m xs i, (i < length old)%nat ->
  let ps := combine m xs in
  (0 < total (map sent_any ps) -> nth i (transform_fracs old m xs) 0 = total (map (sent i) ps) / total (map sent_any ps)) /\
  (total (map sent_any ps) <= 0 -> transform_fracs old m xs = old) /\ length (transform_fracs old m xs) = length old.
Proof.
  intros old m xs i I. cbv zeta. unfold transform_fracs. cbv zeta. set (ps := combine m xs).
  destruct (acc_nth ps (map (fun _ => n0) old) n0 i) as (A & B & C); [rewrite map_length; exact I|]. cbv zeta in A, B, C.
  set (r := fold_left _ ps _) in *. clearbody r. change (@n0 R _) with 0 in *.
  assert (Z : nth i (map (fun _ : R => 0) old) 0 = 0).
  { clear. revert i. induction old; intros [|i]; cbn; auto. }
  rewrite Z in B. rewrite Rplus_0_l in B. rewrite map_length in A. replace (0 + total (map sent_any ps)) with (total (map sent_any ps)) in C by ring. rewrite C.
  change (0 <~ total (map sent_any ps)) with (Rltb 0 (total (map sent_any ps))).
  split; [|split].
  - intro P. rewrite Rltb_true by exact P. rewrite nth_map0 with (d := 0) by (rewrite A; exact I). rewrite B. reflexivity.
  - intro P. rewrite Rltb_false by exact P. reflexivity.
  - destruct (Rltb 0 _); [rewrite map_length; exact A|reflexivity].
Qed.
Print Assumptions C158_transform.
(** The shares add up to one when every place in the map is one of the fluid's. *)
Lemma sum_sent n (p : option nat * R) : (forall k, fst p = Some k -> (k < n)%nat) -> total (map (fun i => sent i p) (seq 0 n)) = sent_any p.
Proof.
  intro H. destruct p as [[k|] x]; unfold sent, sent_any; cbn [fst snd] in *.
  - specialize (H k eq_refl).
    assert (G : forall a n, (a <= k < a + n)%nat -> total (map (fun i => if Nat.eqb k i then x else 0) (seq a n)) = x).
    { assert (Z : forall a n, (k < a)%nat -> total (map (fun i => if Nat.eqb k i then x else 0) (seq a n)) = 0).
      { intros a m. revert a. induction m as [|m IH]; intros a K; cbn [seq map total fold_right]; [reflexivity|]. fold (total (map (fun i => if Nat.eqb k i then x else 0) (seq (S a) m))).
        rewrite IH by lia. destruct (Nat.eqb_spec k a); [lia|lra]. }
      intros a m. revert a. induction m as [|m IH]; intros a K; [lia|]. cbn [seq map total fold_right]. fold (total (map (fun i => if Nat.eqb k i then x else 0) (seq (S a) m))).
      destruct (Nat.eqb_spec k a); [rewrite Z by lia; lra|rewrite IH by lia; lra]. }
    apply G. lia.
  - induction (seq 0 n); cbn; [reflexivity|]. unfold total in IHl. lra.
Qed.
Lemma sum_swap {A B} (f : A -> B -> R) (la : list A) (lb : list B) :
  total (map (fun a => total (map (f a) lb)) la) = total (map (fun b => total (map (fun a => f a b) la)) lb).
Proof.
  induction la as [|a la IH]; cbn [map total fold_right].
  - induction lb as [|b lb IHb]; cbn; [reflexivity|]. unfold total in IHb. rewrite <- IHb. lra.
  - fold (total (map (fun a => total (map (f a) lb)) la)). rewrite IH. clear IH. induction lb as [|b lb IHb]; cbn [map total fold_right]; [lra|].
    fold (total (map (f a) lb)). fold (total (map (fun b => total (map (fun a => f a b) la)) lb)). fold (total (map (fun a => f a b) la)).
    fold (total (map (fun b : B => f a b + fold_right Rplus 0 (map (fun a => f a b) la)) lb)). unfold total in *. cbn [map fold_right] in *. lra.
Qed.
Theorem C158_transform_total : forall (old : list R) m xs, Forall (fun e => forall k, e = Some k -> (k < length old)%nat) m ->
  0 < total (map sent_any (combine m xs)) -> total (transform_fracs old m xs) = 1.
Proof.
  intros old m xs F P. set (ps := combine m xs) in *.
  assert (E : transform_fracs old m xs = map (fun i => total (map (sent i) ps) / total (map sent_any ps)) (seq 0 (length old))).
  { assert (L : length (transform_fracs old m xs) = length old).
    { destruct old as [|o old]; [|apply (C158_transform (o :: old) m xs 0); cbn; lia].
      unfold transform_fracs. cbv zeta. fold ps.
      assert (G : forall s : list R * R, fst s = [] -> fst (fold_left (fun s p => match fst p with Some j => (add_at (fst s) j (snd p), snd s +~ snd p) | None => s end) ps s) = []).
      { clear. induction ps as [|[[j|] x] ps IH]; intros s H; cbn [fold_left]; [exact H| |apply IH; exact H]. apply IH. cbn [fst]. rewrite H. reflexivity. }
      destruct (n0 <~ _); [|reflexivity]. rewrite map_length, G by reflexivity. reflexivity. }
    apply nth_ext with (d := 0) (d' := 0); [rewrite map_length, seq_length; exact L|]. intros i I. rewrite L in I.
    destruct (C158_transform old m xs i I) as [A _]. cbv zeta in A. rewrite (A P). fold ps.
    rewrite nth_indep with (d' := (fun i => total (map (sent i) ps) / total (map sent_any ps)) 0%nat) by (rewrite map_length, seq_length; exact I).
    rewrite (map_nth (fun i => total (map (sent i) ps) / total (map sent_any ps))), seq_nth by exact I. reflexivity. }
  rewrite E. rewrite <- (map_map (fun i => total (map (sent i) ps)) (fun y => y / total (map sent_any ps))), total_div.
  rewrite (sum_swap sent (seq 0 (length old)) ps). 
  assert (Q : map (fun b => total (map (fun a => sent a b) (seq 0 (length old)))) ps = map sent_any ps).
  { apply map_ext_in. intros p I. apply sum_sent. intros k K. destruct p as [e x]. cbn [fst] in K. apply in_combine_l in I.
    rewrite Forall_forall in F. apply (F e I). exact K. }
  rewrite Q. field. lra.
Qed.
Print Assumptions C158_transform_total.
Example C158_transform_nonvacuous : let m := [Some 1%nat; None; Some 1%nat; Some 0%nat] in let xs := [1/10; 1/2; 2/10; 2/10] in
  Forall (fun e => forall k, e = Some k -> (k < length [1; 0])%nat) m /\ total (map sent_any (combine m xs)) = 1 / 2 /\
  transform_fracs [1; 0] m xs = [2 / 5; 3 / 5].
Proof.
  cbv zeta. split; [repeat (apply Forall_cons; [intros k E; first [discriminate | injection E as <-; cbn; lia]|]); apply Forall_nil|].
  split; [cbn; lra|]. unfold transform_fracs, add_at. cbn. rnum. rewrite Rltb_true by lra. cbn. f_equal; [lra|]. f_equal. lra.
Qed.
