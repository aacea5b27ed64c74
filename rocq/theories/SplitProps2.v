(** Property C126: what a sample-splitting arm reports when its columns may leave a path open. *)
From Coq Require Import List Arith ZArith Bool String Reals Permutation Lra Lia.
From Verif Require Import PyBase Num NumOps NumLaws DataModel ScmModel ScmProofs ScmProps TabModel TabSpec TabReal BanditModel ArmModel ArmSpec ParamModel ParamProofs ParamProofs2
  PaperModel PaperSpec PaperProofs PaperProofs2 PaperProofs3 PaperProps ScmSpec LawSpec LawProofs LawProofs2 LawProofs3 LawProofs4 LawProofs5 LawProofs6 LawProps2
  ParamSpec ScoreSpec ScoreProofs ScoreProofs2 ScoreProofs3 ScoreProofs4 ScoreProofs5 ScoreProofs6 ScoreProofs7 LawExample ScoreExample ScoreProps
  SplitSpec SplitProofs SplitProofs2 SplitProofs3 SplitProofs4 SplitExample SplitProps.
From Verif Require ParamProps.
Import ListNotations.
Open Scope nat_scope.
Open Scope list_scope.

(** the mean of the estimate is what adjusting for the arm's columns gives, and the estimate converges to it *)
Theorem C126_adjusted : forall (W M P Q : Type) (w0 : W) (seeds : law W) big zd vd zc vc z0c m (cpds : sdict (cpd X (list (list W)))) limit units latex alg
    g0 e g1 k j arm cf (pr : predictor X M) (pp : predictor X P) x z y vnone la (w : arm_world X Q) opts a0 q0 deltas,
  is_law seeds -> 2 * m + 3 <= k ->
  generate_example xreal big zd vd zc vc z0c m cpds limit units latex alg g0 = (Ok e, g1) ->
  (forall v f, paper_var m v -> entry cpds v f -> unitwise w0 f) ->
  dims_fit zd vd m -> regular (unit_tapes seeds 1 k) (e_scm e) 1 m zd vd ->
  j < 2 ^ m -> nth_error (e_arms e) (S j) = Some arm -> pa_eta arm = Aipw cf ->
  one_unit (unit_tapes seeds 1 k) (e_scm e) (pa_mask arm) x z y -> positive (unit_tapes seeds 1 k) x z ->
  fair_perm w -> ar_split a0 = None ->
  deltas <> [] -> Forall (fun d => valid_delta xreal d = true) deltas ->
  learns (unit_tapes seeds 1 k) x z y pr pp cf (ar_eta a0) ->
  let L n := tapes (unit_tapes seeds n k) (List.length deltas) in
  let after n := after_updates vnone la pr pp cf w opts (pa_mask arm) a0 q0 (e_scm e) n deltas in
  let target := contrast (unit_tapes seeds 1 k) x z y in
  let spread st := variance (unit_tapes seeds 1 k) (unit_score_of pr pp cf (e_scm e) (pa_mask arm) st) in
  let far n eps := prob (L n) (fun gs => reported (after n gs) && if Rle_dec eps (Rabs (or_zero (as_real (ar_ate (after n gs))) - target)) then true else false) in
  (forall n gs p, 2 <= n -> In (gs, p) (L n) -> trained (unit_tapes seeds 1 k) x z y pr pp cf (ar_eta a0) (ar_eta (after n gs)) /\
     reported (after n gs) = aipw_enough (ar_eta (after n gs))) /\
  (forall n, 2 <= n -> mean (L n) (fun gs => if reported (after n gs) then or_zero (as_real (ar_ate (after n gs))) else 0%R) =
     (target * prob (L n) (fun gs => reported (after n gs)))%R) /\
  (forall B, (forall st, trained (unit_tapes seeds 1 k) x z y pr pp cf (ar_eta a0) st -> aipw_enough st = true -> (spread st <= B)%R) ->
     forall eps delta, (0 < eps)%R -> (0 < delta)%R -> exists n0, forall n, n0 <= n -> (far n eps <= delta)%R).
Proof.
  intros W M P Q w0 seeds big zd vd zc vc z0c m cpds limit units latex alg g0 e g1 k j arm cf pr pp x z y vnone la w opts a0 q0 deltas
    Hlaw Hk He Hu Hfit Hreg Hj Harm Hcf Hone Hpos Hp Ha0 Hds Hv Hlearn L after target spread far.
  destruct (backdoor_conf _ _ _ _ _ _ _ _ _ _ _ _ _ _ _ _ _ _ _ He Hj Harm Hcf) as (Es & Em & Hlo & Hdim).
  pose proof (fun st mu pe Hft Hor => contrast_core (list W) M P (tapes seeds 1) big zd vd zc vc z0c m cpds limit units latex alg g0 e g1 k (KU seeds cpds 1) j arm cf
    pr pp st mu pe x z y (tapes_law seeds 1 Hlaw) Hk He (unit_draws w0 seeds m cpds Hu 1) Hfit Hreg Hj Harm Hcf Hone Hpos Hft Hor) as Hcore.
  fold (unit_tapes seeds 1 k) in Hcore.
  assert (Hscore : forall st mu pe, fitted pr pp cf st mu pe -> (right_response (unit_tapes seeds 1 k) x z y mu \/ right_propensity (unit_tapes seeds 1 k) x z (1/4) pe) ->
    forall g p, In (g, p) (unit_tapes seeds 1 k) -> arm_scores pr pp cf st (e_scm e) 1 (arm_mask zd vd m j) g = Ok [Fin (score_of (1/4) mu pe (x g) (z g) (y g))]).
  { intros st mu pe Hft Hor. rewrite <- Em. exact (proj1 (Hcore st mu pe Hft Hor)). }
  assert (Htau : forall st, trained (unit_tapes seeds 1 k) x z y pr pp cf (ar_eta a0) st -> aipw_enough st = true ->
    mean (unit_tapes seeds 1 k) (F m (e_scm e) zd vd j pr pp cf st) = target).
  { intros st Ht Hen. destruct (Hlearn st Ht) as (_ & H). destruct (H Hen) as (mu & pe & Hft & Hor).
    unfold target. rewrite <- (proj2 (Hcore st mu pe Hft Hor)). apply mean_ext_in. intros g p Hin.
    exact (unit_score_is seeds m k (e_scm e) zd vd j x z y pr pp cf Hscore st mu pe Hft Hor g p Hin). }
  unfold far, spread, after. clear far spread after. rewrite Em in Hone |- *.
  split; [|split].
  - intros n gs p Hn Hin.
    destruct (after_spec w0 seeds m k Hk cpds (e_scm e) Es Hu zd vd Hreg j Hfit x z y Hone vnone la pr pp cf w opts Hlo Hdim Hp a0 q0 n deltas Ha0 Hn Hds Hv Hlearn Hscore gs p Hin)
      as (Ht & He' & Hr & _). rewrite He'. now split.
  - intros n Hn. exact (split_unbiased w0 seeds m k Hlaw Hk cpds (e_scm e) Es Hu zd vd Hreg j Hfit x z y Hone vnone la pr pp cf w opts Hlo Hdim Hp a0 q0 n deltas Ha0 Hn Hds Hv Hlearn Hscore target Htau).
  - intros B HB eps delta Heps Hdelta.
    set (B' := Rmax B 0). assert (HB0 : (0 <= B')%R) by apply Rmax_r.
    assert (HB' : forall st, trained (unit_tapes seeds 1 k) x z y pr pp cf (ar_eta a0) st -> aipw_enough st = true ->
      (variance (unit_tapes seeds 1 k) (F m (e_scm e) zd vd j pr pp cf st) <= B')%R).
    { intros st Ht Hen. apply Rle_trans with B; [exact (HB st Ht Hen)|apply Rmax_l]. }
    assert (He2 : (0 < eps ^ 2)%R) by now apply pow_lt.
    destruct (nat_above (B' / (eps ^ 2 * delta))) as (N0 & HN0).
    exists (2 * N0 + 2). intros n Hn. assert (Hn2 : 2 <= n) by lia.
    eapply Rle_trans; [exact (split_far seeds m k Hlaw (e_scm e) zd vd j vnone la pr pp cf w opts a0 q0 n deltas target eps Heps)|].
    pose proof (split_mse_le w0 seeds m k Hlaw Hk cpds (e_scm e) Es Hu zd vd Hreg j Hfit x z y Hone vnone la pr pp cf w opts Hlo Hdim Hp a0 q0 n deltas Ha0 Hn2 Hds Hv Hlearn Hscore target Htau B' HB' HB0) as Hle.
    set (N := N1 opts n deltas) in Hle.
    assert (HNn : N0 <= N /\ 1 <= N).
    { assert (Hh : N0 + 1 <= n / 2) by (apply Nat.div_le_lower_bound; lia). unfold N, N1. destruct deltas as [|? ?]; [congruence|]. cbn [List.length]. destruct (so_stable opts); nia. }
    destruct HNn as (HNn & HN1). apply le_INR in HNn. apply lt_0_INR in HN1.
    apply Rmult_le_reg_r with (eps ^ 2)%R; [exact He2|]. unfold Rdiv at 1. rewrite Rmult_assoc, Rinv_l, Rmult_1_r by lra.
    eapply Rle_trans; [exact Hle|]. apply Rmult_le_reg_r with (INR N); [exact HN1|].
    unfold Rdiv. rewrite Rmult_assoc, Rinv_l, Rmult_1_r by lra.
    apply Rmult_lt_compat_r with (r := (eps ^ 2 * delta)%R) in HN0; [|now apply Rmult_lt_0_compat].
    unfold Rdiv in HN0. rewrite Rmult_assoc, Rinv_l, Rmult_1_r in HN0 by (apply Rgt_not_eq, Rmult_lt_0_compat; lra).
    apply Rle_trans with (INR N0 * (eps ^ 2 * delta))%R; [lra|].
    rewrite (Rmult_comm delta), (Rmult_comm (eps ^ 2 * delta)%R). apply Rmult_le_compat_r; [|exact HNn]. apply Rlt_le. now apply Rmult_lt_0_compat.
Qed.
Print Assumptions C126_adjusted.

(** the instance of SplitExample: the treatment has no effect, the parameter of the arm named Z_1 is right whatever it is
    trained on, the arm always reports, and its estimate has mean 1/2 and is near the effect with a probability that tends to 0 *)
Definition prO := ParamProps.funpred (fun _ => 7%R).
Definition ppO := ParamProps.funpred (fun _ => (1/2)%R).
Lemma O_case : exists e g1 arm cf,
  generate_example xreal 1 [1; 1] [0; 2] (Fin 1) (Fin 1) (Fin 1) 1 cpdsO 10%Z 1 false FINITE_SAMPLE [[0]; [0]; [0]; [0]; [0]] = (Ok e, g1) /\
  e_scm e = scmO /\ nth_error (e_arms e) 1 = Some arm /\ pa_eta arm = Aipw cf /\ pa_mask arm = arm_mask [1; 1] [0; 2] 1 0 /\
  pa_name arm = "Z_1"%string /\ dims_fit [1; 1] [0; 2] 1.
Proof.
  destruct (proj2 (C81_succeeds_iff X (list (list nat)) xreal 1 [1; 1] [0; 2] (Fin 1) (Fin 1) (Fin 1) 1 cpdsO 10%Z 1 false FINITE_SAMPLE [[0]; [0]; [0]; [0]; [0]]))
    as (e & g1 & He).
  { split; [exact (proj1 (paper_scm_inv _ _ _ scmO_ok))|]. cbn [List.length]. split; [lia|]. split; [lia|].
    exists scmO. do 2 eexists. split; [reflexivity|]. reflexivity. }
  assert (Harm : exists arm cf, nth_error (e_arms e) 1 = Some arm /\ pa_eta arm = Aipw cf /\ pa_name arm = "Z_1"%string).
  { pose proof He as He'. apply generate_example_spec in He' as (s & d0 & x & t & y & Es & Hz & Hv & _ & _ & _ & _ & ->).
    do 2 eexists. split; [reflexivity|]. split; reflexivity. }
  destruct Harm as (arm & cf & Harm & Hcf & Hname). exists e, g1, arm, cf.
  destruct (backdoor_conf _ _ _ _ _ _ _ _ _ _ _ _ _ _ _ _ 0 _ _ He (le_n_S 0 1 (Nat.le_0_l 1)) Harm Hcf) as (Es & Em & Hlo & Hdim).
  split; [exact He|]. split; [rewrite scmO_ok in Es; congruence|]. split; [exact Harm|]. split; [exact Hcf|]. split; [exact Em|]. split; [exact Hname|].
  repeat split; try lia; assert (i = 1) as -> by lia; cbn; lia.
Qed.
Lemma O_learns cf (st0 : aipw X unit unit) : ac_dim cf = 1 -> learns TO xO zO yO prO ppO cf st0.
Proof.
  intros Hd st _. split.
  - intros us _. rewrite (aipw_fit_dataset xreal prO ppO cf st _ (map (fun u => map Fin (zO u)) us) (bits xreal (map xO us)) (map (fun u => Fin (yO u)) us)).
    + destruct (too_few _ _ _ _); reflexivity.
    + unfold dataset, unit_data. cbn [dcov dexp drsp n_units n_features]. unfold bits. rewrite !map_length. repeat (split; [reflexivity|]).
      apply Forall_forall. intros r Hr. apply in_map_iff in Hr as (u & <- & _). rewrite map_length, Hd. reflexivity.
  - intro Hen. exists (fun _ => 7%R), (fun _ => (1/2)%R). split; [|right; exact O_propensity]. split; [exact Hen|]. destruct (ap_resp st), (ap_prop st). split; apply ParamProps.funpred_evaluates.
Qed.

Theorem C126_open_refuted : exists e g1 arm cf s1 s0,
  generate_example xreal 1 [1; 1] [0; 2] (Fin 1) (Fin 1) (Fin 1) 1 cpdsO 10%Z 1 false FINITE_SAMPLE [[0]; [0]; [0]; [0]; [0]] = (Ok e, g1) /\
  nth_error (e_arms e) 1 = Some arm /\ pa_name arm = "Z_1"%string /\ pa_eta arm = Aipw cf /\
  sets_treatment (e_scm e) s1 true /\ sets_treatment (e_scm e) s0 false /\ effect TO s1 s0 = 0%R /\
  (forall st0, learns TO xO zO yO prO ppO cf st0) /\
  forall vnone la t, 1 <= t ->
    let L n := tapes (unit_tapes four n 5) t in
    let after n := after_updates vnone la prO ppO cf wU optsU (pa_mask arm) armU tt (e_scm e) n (repeat (Fin (1/2)) t) in
    (forall n gs p, 2 <= n -> In (gs, p) (L n) -> reported (after n gs) = true) /\
    (forall n, 2 <= n -> mean (L n) (fun gs => or_zero (as_real (ar_ate (after n gs)))) = (1/2)%R) /\
    forall delta, (0 < delta)%R -> exists n0, forall n, n0 <= n ->
      (prob (L n) (fun gs => if Rle_dec (Rabs (or_zero (as_real (ar_ate (after n gs))) - effect TO s1 s0)) (1/4) then true else false) <= delta)%R.
Proof.
  destruct O_case as (e & g1 & arm & cf & He & Es & Harm & Hcf & Em & Hname & Hfit).
  exists e, g1, arm, cf, (scmDoO true), (scmDoO false). split; [exact He|]. split; [exact Harm|]. split; [exact Hname|]. split; [exact Hcf|].
  split; [rewrite Es; apply scmDoO_sets|]. split; [rewrite Es; apply scmDoO_sets|]. split; [exact O_effect|].
  destruct (backdoor_conf _ _ _ _ _ _ _ _ _ _ _ _ _ _ _ _ 0 _ _ He (le_n_S 0 1 (Nat.le_0_l 1)) Harm Hcf) as (_ & _ & _ & Hdim).
  split; [intro st0; apply O_learns; exact Hdim|].
  intros vnone la t Ht L after.
  pose proof O_one as Hone. rewrite <- Em, <- Es in Hone. pose proof O_regular as Hreg. rewrite <- Es in Hreg.
  pose proof (fun v f (_ : paper_var 1 v) => cpdsO_unitwise v f) as Hu.
  assert (Hv : Forall (fun d => valid_delta xreal d = true) (repeat (Fin (1/2)) t)).
  { apply Forall_forall. intros d Hd. apply repeat_spec in Hd as ->. exact half_valid. }
  assert (Hne : repeat (Fin (1/2)) t <> []) by (destruct t; [lia|discriminate]).
  destruct (C126_adjusted nat unit unit unit 0 four _ _ _ _ _ _ 1 _ _ _ _ _ _ e g1 5 0 arm cf prO ppO xO zO yO vnone la wU optsU armU tt
    (repeat (Fin (1/2)) t) four_law (le_n 5) He Hu Hfit Hreg (le_n_S 0 1 (Nat.le_0_l 1)) Harm Hcf Hone O_positive wU_fair eq_refl Hne Hv
    (O_learns cf _ Hdim)) as (Hr & Hm & Hc). rewrite repeat_length in Hr, Hm, Hc. rewrite O_contrast in Hm, Hc.
  assert (Hrep : forall n gs p, 2 <= n -> In (gs, p) (L n) -> reported (after n gs) = true).
  { intros n gs p Hn Hin. destruct (Hr n gs p Hn Hin) as (Htr & Hr'). unfold after. rewrite Hr'. clear - Htr.
    assert (Hf : ap_fit (ar_eta armU) = true) by reflexivity. unfold aipw_enough. induction Htr as [|st us _ IH _]; [exact Hf|]. now apply aipw_fit_keeps. }
  split; [exact Hrep|]. split.
  - intros n Hn. transitivity (mean (L n) (fun gs => if reported (after n gs) then or_zero (as_real (ar_ate (after n gs))) else 0%R)).
    + apply mean_ext_in. intros gs p Hin. now rewrite (Hrep n gs p Hn Hin).
    + unfold L, after. rewrite (Hm n Hn). unfold prob. rewrite (mean_ext_in _ _ (fun _ => 1%R)).
      * rewrite mean_const; [lra|]. exact (proj2 (tapes_law _ t (tapes_law _ 5 (tapes_law four n four_law)))).
      * intros gs p Hin. pose proof (Hrep n gs p Hn Hin) as E. unfold after in E. now rewrite E.
  - intros delta Hdelta.
    destruct (Hc (variance TO (unit_score_of prO ppO cf (e_scm e) (pa_mask arm) stU))) with (eps := (1/4)%R) (delta := delta) as (n0 & Hn0); [|lra|exact Hdelta|].
    + intros st _ Hen. apply Req_le. destruct st as [[] [] f d]. cbn in Hen. subst f. reflexivity.
    + exists (n0 + 2). intros n Hn. eapply Rle_trans; [|apply (Hn0 n); lia]. rewrite O_effect.
      apply Rle_trans with (prob (L n) (fun gs => reported (after n gs) && if Rle_dec (1/4) (Rabs (or_zero (as_real (ar_ate (after n gs))) - 1/2)) then true else false)); [|apply Rle_refl].
      apply Rle_trans with (prob (L n) (fun gs => reported (after n gs) && if Rle_dec (Rabs (or_zero (as_real (ar_ate (after n gs))) - 0)) (1/4) then true else false)).
      { apply Req_le, mean_ext_in. intros gs p Hin. now rewrite (Hrep n gs p ltac:(lia) Hin). }
      apply mean_le; [exact (proj1 (tapes_law _ t (tapes_law _ 5 (tapes_law four n four_law))))|]. intro gs.
      destruct (reported (after n gs)); cbn [andb]; [|lra]. set (r := or_zero _).
      destruct (Rle_dec (Rabs (r - 0)) (1/4)) as [H|]; destruct (Rle_dec (1/4) (Rabs (r - 1/2))) as [|H2]; try lra.
      exfalso. apply H2. revert H. unfold Rabs. destruct (Rcase_abs (r - 0)), (Rcase_abs (r - 1/2)); lra.
Qed.
Print Assumptions C126_open_refuted.

(** the numbers of that instance: adjusting for the arm's column gives 1/2, the effect is 0, and the column blocks nothing *)
Example C126_case : contrast TO xO zO yO = (1/2)%R /\ effect TO (scmDoO true) (scmDoO false) = 0%R /\
  ~ covers [1; 1] [0; 2] 1 (arm_columns [1; 1] [0; 2] 1 0).
Proof. split; [exact O_contrast|]. split; [exact O_effect|exact O_open]. Qed.
