(** Properties C123 and C124: what a sample-splitting arm of the paper's experiments reports. *)
From Coq Require Import List Arith ZArith Bool String Reals Permutation Lra Lia.
From Verif Require Import PyBase Num NumOps NumLaws DataModel ScmModel ScmProofs ScmProps TabModel TabSpec TabReal BanditModel ArmModel ArmSpec ParamModel ParamProofs ParamProofs2
  PaperModel PaperSpec PaperProofs PaperProofs2 PaperProofs3 PaperProps ScmSpec LawSpec LawProofs LawProofs2 LawProofs3 LawProofs4 LawProofs5 LawProofs6 LawProps2
  ParamSpec ScoreSpec ScoreProofs ScoreProofs2 ScoreProofs3 ScoreProofs4 ScoreProofs5 ScoreProofs6 ScoreProofs7 LawExample ScoreExample ScoreProps
  SplitSpec SplitProofs SplitProofs2 SplitProofs3.
From Verif Require ParamProps.
Import ListNotations.
Open Scope nat_scope.
Open Scope list_scope.


(** ** C123: the estimate of the effect, after any number of updates, with and without stable splits *)
Theorem C123_unbiased : forall (W M P Q : Type) (w0 : W) (seeds : law W) big zd vd zc vc z0c m (cpds : sdict (cpd X (list (list W)))) limit units latex alg
    g0 e g1 k j arm cf (pr : predictor X M) (pp : predictor X P) x z y s1 s0 vnone la (w : arm_world X Q) opts a0 q0 n deltas,
  is_law seeds -> 2 * m + 3 <= k ->
  generate_example xreal big zd vd zc vc z0c m cpds limit units latex alg g0 = (Ok e, g1) ->
  (forall v f, paper_var m v -> entry cpds v f -> unitwise w0 f) ->
  dims_fit zd vd m -> regular (unit_tapes seeds 1 k) (e_scm e) 1 m zd vd ->
  j < 2 ^ m -> nth_error (e_arms e) (S j) = Some arm -> pa_eta arm = Aipw cf ->
  covers zd vd m (mask_list (pa_mask arm)) ->
  sets_treatment (e_scm e) s1 true -> sets_treatment (e_scm e) s0 false ->
  one_unit (unit_tapes seeds 1 k) (e_scm e) (pa_mask arm) x z y -> positive (unit_tapes seeds 1 k) x z ->
  fair_perm w -> ar_split a0 = None ->
  2 <= n -> deltas <> [] -> Forall (fun d => valid_delta xreal d = true) deltas ->
  learns (unit_tapes seeds 1 k) x z y pr pp cf (ar_eta a0) ->
  let L := tapes (unit_tapes seeds n k) (List.length deltas) in
  let after := after_updates vnone la pr pp cf w opts (pa_mask arm) a0 q0 (e_scm e) n deltas in
  (forall gs p, In (gs, p) L -> trained (unit_tapes seeds 1 k) x z y pr pp cf (ar_eta a0) (ar_eta (after gs)) /\
     reported (after gs) = aipw_enough (ar_eta (after gs))) /\
  mean L (fun gs => if reported (after gs) then or_zero (as_real (ar_ate (after gs))) else 0%R) =
  (effect (unit_tapes seeds 1 k) s1 s0 * prob L (fun gs => reported (after gs)))%R.
Proof.
  intros W M P Q w0 seeds big zd vd zc vc z0c m cpds limit units latex alg g0 e g1 k j arm cf pr pp x z y s1 s0 vnone la w opts a0 q0 n deltas
    Hlaw Hk He Hu Hfit Hreg Hj Harm Hcf Hcov Hs1 Hs0 Hone Hpos Hp Ha0 Hn Hds Hv Hlearn L after.
  destruct (backdoor_conf _ _ _ _ _ _ _ _ _ _ _ _ _ _ _ _ _ _ _ He Hj Harm Hcf) as (Es & Em & Hlo & Hdim).
  pose proof (fun st mu pe Hft Hor => unbiased_core (list W) M P (tapes seeds 1) big zd vd zc vc z0c m cpds limit units latex alg g0 e g1 k (KU seeds cpds 1) j arm cf
    pr pp st mu pe x z y s1 s0 (tapes_law seeds 1 Hlaw) Hk He (unit_draws w0 seeds m cpds Hu 1) Hfit Hreg Hj Harm Hcf Hcov Hs1 Hs0 Hone Hpos Hft Hor) as Hcore.
  fold (unit_tapes seeds 1 k) in Hcore.
  assert (Hscore : forall st mu pe, fitted pr pp cf st mu pe -> (right_response (unit_tapes seeds 1 k) x z y mu \/ right_propensity (unit_tapes seeds 1 k) x z (1/4) pe) ->
    forall g p, In (g, p) (unit_tapes seeds 1 k) -> arm_scores pr pp cf st (e_scm e) 1 (arm_mask zd vd m j) g = Ok [Fin (score_of (1/4) mu pe (x g) (z g) (y g))]).
  { intros st mu pe Hft Hor. rewrite <- Em. exact (proj1 (Hcore st mu pe Hft Hor)). }
  rewrite Em in Hone. unfold after. rewrite Em. split.
  - intros gs p Hin.
    destruct (after_spec w0 seeds m k Hk cpds (e_scm e) Es Hu zd vd Hreg j Hfit x z y Hone vnone la pr pp cf w opts Hlo Hdim Hp a0 q0 n deltas Ha0 Hn Hds Hv Hlearn Hscore gs p Hin)
      as (Ht & He' & Hr & _). rewrite He'. now split.
  - apply (split_unbiased w0 seeds m k Hlaw Hk cpds (e_scm e) Es Hu zd vd Hreg j Hfit x z y Hone vnone la pr pp cf w opts Hlo Hdim Hp a0 q0 n deltas Ha0 Hn Hds Hv Hlearn Hscore).
    intros st Ht Hen. destruct (Hlearn st Ht) as (_ & H). destruct (H Hen) as (mu & pe & Hft & Hor).
    rewrite <- (proj2 (Hcore st mu pe Hft Hor)). apply mean_ext_in. intros g p Hin.
    exact (unit_score_is seeds m k (e_scm e) zd vd j x z y pr pp cf Hscore st mu pe Hft Hor g p Hin).
Qed.
Print Assumptions C123_unbiased.

(** ** C124: the estimate of the variance of the score is too small by the factor 1 - 1/n for n units in the second fold *)
Theorem C124_variance : forall (W M P Q : Type) (w0 : W) (seeds : law W) big zd vd zc vc z0c m (cpds : sdict (cpd X (list (list W)))) limit units latex alg
    g0 e g1 k j arm cf (pr : predictor X M) (pp : predictor X P) x z y s1 s0 vnone la (w : arm_world X Q) opts a0 q0 n deltas,
  is_law seeds -> 2 * m + 3 <= k ->
  generate_example xreal big zd vd zc vc z0c m cpds limit units latex alg g0 = (Ok e, g1) ->
  (forall v f, paper_var m v -> entry cpds v f -> unitwise w0 f) ->
  dims_fit zd vd m -> regular (unit_tapes seeds 1 k) (e_scm e) 1 m zd vd ->
  j < 2 ^ m -> nth_error (e_arms e) (S j) = Some arm -> pa_eta arm = Aipw cf ->
  covers zd vd m (mask_list (pa_mask arm)) ->
  sets_treatment (e_scm e) s1 true -> sets_treatment (e_scm e) s0 false ->
  one_unit (unit_tapes seeds 1 k) (e_scm e) (pa_mask arm) x z y -> positive (unit_tapes seeds 1 k) x z ->
  fair_perm w -> ar_split a0 = None ->
  2 <= n -> deltas <> [] -> Forall (fun d => valid_delta xreal d = true) deltas ->
  learns (unit_tapes seeds 1 k) x z y pr pp cf (ar_eta a0) ->
  let L := tapes (unit_tapes seeds n k) (List.length deltas) in
  let after := after_updates vnone la pr pp cf w opts (pa_mask arm) a0 q0 (e_scm e) n deltas in
  let score st := unit_score_of pr pp cf (e_scm e) (pa_mask arm) st in
  mean L (fun gs => if reported (after gs) then or_zero (as_real (ar_var (after gs))) else 0%R) =
  ((1 - 1 / INR ((if so_stable opts then List.length deltas else 1) * (n / 2))) *
   mean L (fun gs => if reported (after gs) then variance (unit_tapes seeds 1 k) (score (ar_eta (after gs))) else 0))%R.
Proof.
  intros W M P Q w0 seeds big zd vd zc vc z0c m cpds limit units latex alg g0 e g1 k j arm cf pr pp x z y s1 s0 vnone la w opts a0 q0 n deltas
    Hlaw Hk He Hu Hfit Hreg Hj Harm Hcf Hcov Hs1 Hs0 Hone Hpos Hp Ha0 Hn Hds Hv Hlearn L after score.
  destruct (backdoor_conf _ _ _ _ _ _ _ _ _ _ _ _ _ _ _ _ _ _ _ He Hj Harm Hcf) as (Es & Em & Hlo & Hdim).
  pose proof (fun st mu pe Hft Hor => unbiased_core (list W) M P (tapes seeds 1) big zd vd zc vc z0c m cpds limit units latex alg g0 e g1 k (KU seeds cpds 1) j arm cf
    pr pp st mu pe x z y s1 s0 (tapes_law seeds 1 Hlaw) Hk He (unit_draws w0 seeds m cpds Hu 1) Hfit Hreg Hj Harm Hcf Hcov Hs1 Hs0 Hone Hpos Hft Hor) as Hcore.
  fold (unit_tapes seeds 1 k) in Hcore.
  assert (Hscore : forall st mu pe, fitted pr pp cf st mu pe -> (right_response (unit_tapes seeds 1 k) x z y mu \/ right_propensity (unit_tapes seeds 1 k) x z (1/4) pe) ->
    forall g p, In (g, p) (unit_tapes seeds 1 k) -> arm_scores pr pp cf st (e_scm e) 1 (arm_mask zd vd m j) g = Ok [Fin (score_of (1/4) mu pe (x g) (z g) (y g))]).
  { intros st mu pe Hft Hor. rewrite <- Em. exact (proj1 (Hcore st mu pe Hft Hor)). }
  rewrite Em in Hone. unfold after, score. rewrite Em.
  exact (split_variance w0 seeds m k Hlaw Hk cpds (e_scm e) Es Hu zd vd Hreg j Hfit x z y Hone vnone la pr pp cf w opts Hlo Hdim Hp a0 q0 n deltas Ha0 Hn Hds Hv Hlearn Hscore).
Qed.
Print Assumptions C124_variance.

(** in the instance of C121 the parameter learns, whatever it was *)
Lemma U_learns cf (st0 : aipw X unit unit) : ac_dim cf = 1 -> learns TU xU zU yU prU ppU cf st0.
Proof.
  intros Hd st _. split.
  - intros us _. rewrite (aipw_fit_dataset xreal prU ppU cf st _ (map (fun u => map Fin (zU u)) us) (bits xreal (map xU us)) (map (fun u => Fin (yU u)) us)).
    + destruct (too_few _ _ _ _); reflexivity.
    + unfold dataset, unit_data. cbn [dcov dexp drsp n_units n_features]. unfold bits. rewrite !map_length. repeat (split; [reflexivity|]).
      apply Forall_forall. intros r Hr. apply in_map_iff in Hr as (u & <- & _). rewrite map_length, Hd. reflexivity.
  - intro Hen. exists (fun _ => 7%R), eU. split; [|right; exact U_propensity]. split; [exact Hen|]. destruct (ap_resp st), (ap_prop st). split; apply ParamProps.funpred_evaluates.
Qed.

(** ... an arm that knows its parameter from the start always reports, and after any number of updates with batches of any
    size its estimate has mean 1/3 *)
Definition wU : arm_world X unit := mkArmWorld X unit (fun _ l => (rev l, tt)) (fun _ _ => ([], tt)) (fun _ _ => Fin 1) (fun _ => Fin 1).
Definition armU : ArmModel.arm X X (aipw X unit unit) := arm_new xreal stU.
Definition optsU : ss_opts X := mkSS CHI2 true (Fin 1) (Fin 1) (Fin 1) (Fin 2) (Fin 1).
Lemma wU_fair : fair_perm wU.
Proof. intros g l. apply Permutation_sym, Permutation_rev. Qed.
Lemma half_valid : valid_delta xreal (Fin (1/2)) = true.
Proof.
  unfold valid_delta. rewrite !nint_x. cbn [nltb xreal xltb].
  destruct (Rlt_dec (IZR 0) (1/2)); [|lra]. destruct (Rlt_dec (1/2) (IZR 1)); [reflexivity|lra].
Qed.
Example C123_case : exists e g1 arm cf,
  generate_example xreal 1 [1; 1] [0; 1] (Fin 1) (Fin 1) (Fin 1) 1 cpdsU 10%Z 1 false FINITE_SAMPLE [[0]; [0]; [0]; [0]; [0]] = (Ok e, g1) /\
  nth_error (e_arms e) 1 = Some arm /\ pa_eta arm = Aipw cf /\
  (forall st0, learns TU xU zU yU prU ppU cf st0) /\
  forall vnone la n t, 2 <= n -> 1 <= t ->
    let L := tapes (unit_tapes law3 n 5) t in
    let after := after_updates vnone la prU ppU cf wU optsU (pa_mask arm) armU tt (e_scm e) n (repeat (Fin (1/2)) t) in
    (forall gs p, In (gs, p) L -> reported (after gs) = true) /\
    mean L (fun gs => or_zero (as_real (ar_ate (after gs)))) = (1/3)%R.
Proof.
  destruct U_case as (e & g1 & arm & cf & He & Es & Harm & Hcf & Em & Hfit & Hcov & Hft).
  exists e, g1, arm, cf. split; [exact He|]. split; [exact Harm|]. split; [exact Hcf|].
  destruct (backdoor_conf _ _ _ _ _ _ _ _ _ _ _ _ _ _ _ _ 0 _ _ He (le_n_S 0 1 (Nat.le_0_l 1)) Harm Hcf) as (_ & _ & _ & Hdim).
  split; [intro st0; apply U_learns; exact Hdim|].
  intros vnone la n t Hn Ht L after.
  pose proof U_one as Hone. rewrite <- Em, <- Es in Hone. pose proof U_regular as Hreg. rewrite <- Es in Hreg.
  pose proof (fun v f (_ : paper_var 1 v) => cpdsU_unitwise v f) as Hu.
  pose proof (scmDo_sets true) as Ht1. pose proof (scmDo_sets false) as Ht0. rewrite <- Es in Ht1, Ht0.
  assert (Hv : Forall (fun d => valid_delta xreal d = true) (repeat (Fin (1/2)) t)).
  { apply Forall_forall. intros d Hd. apply repeat_spec in Hd as ->. exact half_valid. }
  assert (Hne : repeat (Fin (1/2)) t <> []) by (destruct t; [lia|discriminate]).
  pose proof (C123_unbiased nat unit unit unit 0 law3 _ _ _ _ _ _ 1 _ _ _ _ _ _ e g1 5 0 arm cf prU ppU xU zU yU (scmDo true) (scmDo false) vnone la wU optsU armU tt n
    (repeat (Fin (1/2)) t) law3_law (le_n 5) He Hu Hfit Hreg (le_n_S 0 1 (Nat.le_0_l 1)) Harm Hcf Hcov Ht1 Ht0 Hone U_positive wU_fair eq_refl Hn Hne Hv
    (U_learns cf _ Hdim)) as (Hr & Hm).
  rewrite repeat_length in Hr, Hm. fold L after in Hr, Hm.
  assert (Hrep : forall gs p, In (gs, p) L -> reported (after gs) = true).
  { intros gs p Hin. destruct (Hr gs p Hin) as (Htr & ->). clear - Htr.
    assert (Hf : ap_fit (ar_eta armU) = true) by reflexivity. unfold aipw_enough. induction Htr as [|st us _ IH _]; [exact Hf|]. now apply aipw_fit_keeps. }
  split; [exact Hrep|].
  transitivity (mean L (fun gs => if reported (after gs) then or_zero (as_real (ar_ate (after gs))) else 0%R)).
  - apply mean_ext_in. intros gs p Hin. now rewrite (Hrep gs p Hin).
  - rewrite Hm, U_effect. unfold prob. rewrite (mean_ext_in L _ (fun _ => 1%R)) by (intros gs p Hin; now rewrite (Hrep gs p Hin)).
    rewrite (mean_const L 1%R); [lra|]. exact (proj2 (tapes_law _ t (tapes_law _ 5 (tapes_law law3 n law3_law)))).
Qed.

(** in that instance: one update on two units leaves one unit for the second fold, and the reported variance has mean 0 *)
Example C124_case : exists e g1 arm cf,
  generate_example xreal 1 [1; 1] [0; 1] (Fin 1) (Fin 1) (Fin 1) 1 cpdsU 10%Z 1 false FINITE_SAMPLE [[0]; [0]; [0]; [0]; [0]] = (Ok e, g1) /\
  nth_error (e_arms e) 1 = Some arm /\ pa_eta arm = Aipw cf /\
  (forall vnone la,
    let L := tapes (unit_tapes law3 2 5) 1 in
    let after := after_updates vnone la prU ppU cf wU optsU (pa_mask arm) armU tt (e_scm e) 2 [Fin (1/2)] in
    mean L (fun gs => if reported (after gs) then or_zero (as_real (ar_var (after gs))) else 0%R) = 0%R) /\
  (forall vnone la n t, 2 <= n -> 1 <= t ->
    let L := tapes (unit_tapes law3 n 5) t in
    let after := after_updates vnone la prU ppU cf wU optsU (pa_mask arm) armU tt (e_scm e) n (repeat (Fin (1/2)) t) in
    mean L (fun gs => if reported (after gs) then or_zero (as_real (ar_var (after gs))) else 0%R) =
    ((1 - 1 / INR (t * (n / 2))) * mean L (fun gs => if reported (after gs) then variance TU (unit_score_of prU ppU cf (e_scm e) (pa_mask arm) (ar_eta (after gs))) else 0))%R).
Proof.
  destruct U_case as (e & g1 & arm & cf & He & Es & Harm & Hcf & Em & Hfit & Hcov & Hft).
  exists e, g1, arm, cf. split; [exact He|]. split; [exact Harm|]. split; [exact Hcf|].
  destruct (backdoor_conf _ _ _ _ _ _ _ _ _ _ _ _ _ _ _ _ 0 _ _ He (le_n_S 0 1 (Nat.le_0_l 1)) Harm Hcf) as (_ & _ & _ & Hdim).
  pose proof U_one as Hone. rewrite <- Em, <- Es in Hone. pose proof U_regular as Hreg. rewrite <- Es in Hreg.
  pose proof (fun v f (_ : paper_var 1 v) => cpdsU_unitwise v f) as Hu.
  pose proof (scmDo_sets true) as Ht1. pose proof (scmDo_sets false) as Ht0. rewrite <- Es in Ht1, Ht0.
  assert (H : forall vnone la n t, 2 <= n -> 1 <= t ->
    let L := tapes (unit_tapes law3 n 5) t in
    let after := after_updates vnone la prU ppU cf wU optsU (pa_mask arm) armU tt (e_scm e) n (repeat (Fin (1/2)) t) in
    mean L (fun gs => if reported (after gs) then or_zero (as_real (ar_var (after gs))) else 0%R) =
    ((1 - 1 / INR (t * (n / 2))) * mean L (fun gs => if reported (after gs) then variance TU (unit_score_of prU ppU cf (e_scm e) (pa_mask arm) (ar_eta (after gs))) else 0))%R).
  { intros vnone la n t Hn Ht L after.
    assert (Hv : Forall (fun d => valid_delta xreal d = true) (repeat (Fin (1/2)) t)).
    { apply Forall_forall. intros d Hd. apply repeat_spec in Hd as ->. exact half_valid. }
    assert (Hne : repeat (Fin (1/2)) t <> []) by (destruct t; [lia|discriminate]).
    pose proof (C124_variance nat unit unit unit 0 law3 _ _ _ _ _ _ 1 _ _ _ _ _ _ e g1 5 0 arm cf prU ppU xU zU yU (scmDo true) (scmDo false) vnone la wU optsU armU tt n
      (repeat (Fin (1/2)) t) law3_law (le_n 5) He Hu Hfit Hreg (le_n_S 0 1 (Nat.le_0_l 1)) Harm Hcf Hcov Ht1 Ht0 Hone U_positive wU_fair eq_refl Hn Hne Hv
      (U_learns cf _ Hdim)) as Hm.
    rewrite repeat_length in Hm. exact Hm. }
  split; [|exact H]. intros vnone la L after. pose proof (H vnone la 2 1 (le_n 2) (le_n 1)) as E. cbn zeta in E. fold L in E.
  change (repeat (Fin (1/2)) 1) with [Fin (1/2)] in E. fold after in E. rewrite E. change (1 * (2 / 2)) with 1. cbn [INR]. lra.
Qed.

(** ** C125: the squared error of the estimate of the effect: the variance of one score over the number n of units in the
    second fold, on average the reported variance over n - 1; Chebyshev's inequality; and the estimate is consistent *)
Theorem C125_error : forall (W M P Q : Type) (w0 : W) (seeds : law W) big zd vd zc vc z0c m (cpds : sdict (cpd X (list (list W)))) limit units latex alg
    g0 e g1 k j arm cf (pr : predictor X M) (pp : predictor X P) x z y s1 s0 vnone la (w : arm_world X Q) opts a0 q0 deltas,
  is_law seeds -> 2 * m + 3 <= k ->
  generate_example xreal big zd vd zc vc z0c m cpds limit units latex alg g0 = (Ok e, g1) ->
  (forall v f, paper_var m v -> entry cpds v f -> unitwise w0 f) ->
  dims_fit zd vd m -> regular (unit_tapes seeds 1 k) (e_scm e) 1 m zd vd ->
  j < 2 ^ m -> nth_error (e_arms e) (S j) = Some arm -> pa_eta arm = Aipw cf ->
  covers zd vd m (mask_list (pa_mask arm)) ->
  sets_treatment (e_scm e) s1 true -> sets_treatment (e_scm e) s0 false ->
  one_unit (unit_tapes seeds 1 k) (e_scm e) (pa_mask arm) x z y -> positive (unit_tapes seeds 1 k) x z ->
  fair_perm w -> ar_split a0 = None ->
  deltas <> [] -> Forall (fun d => valid_delta xreal d = true) deltas ->
  learns (unit_tapes seeds 1 k) x z y pr pp cf (ar_eta a0) ->
  let L n := tapes (unit_tapes seeds n k) (List.length deltas) in
  let after n := after_updates vnone la pr pp cf w opts (pa_mask arm) a0 q0 (e_scm e) n deltas in
  let spread st := variance (unit_tapes seeds 1 k) (unit_score_of pr pp cf (e_scm e) (pa_mask arm) st) in
  let N n := (if so_stable opts then List.length deltas else 1) * (n / 2) in
  let error n gs := (or_zero (as_real (ar_ate (after n gs))) - effect (unit_tapes seeds 1 k) s1 s0)%R in
  let mse n := mean (L n) (fun gs => if reported (after n gs) then (error n gs ^ 2)%R else 0%R) in
  let far n eps := prob (L n) (fun gs => reported (after n gs) && if Rle_dec eps (Rabs (error n gs)) then true else false) in
  (forall n, 2 <= n -> mse n = (mean (L n) (fun gs => if reported (after n gs) then spread (ar_eta (after n gs)) else 0) / INR (N n))%R) /\
  (forall n, 2 <= n -> 2 <= N n -> mse n = mean (L n) (fun gs => if reported (after n gs) then or_zero (as_real (ar_var (after n gs))) / (INR (N n) - 1) else 0)%R) /\
  (forall n eps, 2 <= n -> (0 < eps)%R -> (far n eps <= mse n / eps ^ 2)%R) /\
  (forall B, (forall st, trained (unit_tapes seeds 1 k) x z y pr pp cf (ar_eta a0) st -> aipw_enough st = true -> (spread st <= B)%R) ->
     forall eps delta, (0 < eps)%R -> (0 < delta)%R -> exists n0, forall n, n0 <= n -> (far n eps <= delta)%R).
Proof.
  intros W M P Q w0 seeds big zd vd zc vc z0c m cpds limit units latex alg g0 e g1 k j arm cf pr pp x z y s1 s0 vnone la w opts a0 q0 deltas
    Hlaw Hk He Hu Hfit Hreg Hj Harm Hcf Hcov Hs1 Hs0 Hone Hpos Hp Ha0 Hds Hv Hlearn L after spread N error mse far.
  destruct (backdoor_conf _ _ _ _ _ _ _ _ _ _ _ _ _ _ _ _ _ _ _ He Hj Harm Hcf) as (Es & Em & Hlo & Hdim).
  pose proof (fun st mu pe Hft Hor => unbiased_core (list W) M P (tapes seeds 1) big zd vd zc vc z0c m cpds limit units latex alg g0 e g1 k (KU seeds cpds 1) j arm cf
    pr pp st mu pe x z y s1 s0 (tapes_law seeds 1 Hlaw) Hk He (unit_draws w0 seeds m cpds Hu 1) Hfit Hreg Hj Harm Hcf Hcov Hs1 Hs0 Hone Hpos Hft Hor) as Hcore.
  fold (unit_tapes seeds 1 k) in Hcore.
  assert (Hscore : forall st mu pe, fitted pr pp cf st mu pe -> (right_response (unit_tapes seeds 1 k) x z y mu \/ right_propensity (unit_tapes seeds 1 k) x z (1/4) pe) ->
    forall g p, In (g, p) (unit_tapes seeds 1 k) -> arm_scores pr pp cf st (e_scm e) 1 (arm_mask zd vd m j) g = Ok [Fin (score_of (1/4) mu pe (x g) (z g) (y g))]).
  { intros st mu pe Hft Hor. rewrite <- Em. exact (proj1 (Hcore st mu pe Hft Hor)). }
  assert (Htau : forall st, trained (unit_tapes seeds 1 k) x z y pr pp cf (ar_eta a0) st -> aipw_enough st = true ->
    mean (unit_tapes seeds 1 k) (F m (e_scm e) zd vd j pr pp cf st) = effect (unit_tapes seeds 1 k) s1 s0).
  { intros st Ht Hen. destruct (Hlearn st Ht) as (_ & H). destruct (H Hen) as (mu & pe & Hft & Hor).
    rewrite <- (proj2 (Hcore st mu pe Hft Hor)). apply mean_ext_in. intros g p Hin.
    exact (unit_score_is seeds m k (e_scm e) zd vd j x z y pr pp cf Hscore st mu pe Hft Hor g p Hin). }
  unfold far, mse, error, spread, after. clear far mse error spread after. rewrite Em in Hone |- *.
  pose proof (fun n Hn => split_mse w0 seeds m k Hlaw Hk cpds (e_scm e) Es Hu zd vd Hreg j Hfit x z y Hone vnone la pr pp cf w opts Hlo Hdim Hp a0 q0 n deltas Ha0 Hn Hds Hv Hlearn Hscore _ Htau) as Hmse.
  pose proof (fun n eps (Hn : 2 <= n) (Heps : (0 < eps)%R) => split_far seeds m k Hlaw (e_scm e) zd vd j vnone la pr pp cf w opts a0 q0 n deltas (effect (unit_tapes seeds 1 k) s1 s0) eps Heps) as Hfar.
  split; [exact Hmse|]. split; [|split; [exact Hfar|]].
  - intros n Hn HN. exact (split_mse_est w0 seeds m k Hlaw Hk cpds (e_scm e) Es Hu zd vd Hreg j Hfit x z y Hone vnone la pr pp cf w opts Hlo Hdim Hp a0 q0 n deltas Ha0 Hn Hds Hv Hlearn Hscore _ Htau HN).
  - intros B HB eps delta Heps Hdelta.
    set (B' := Rmax B 0). assert (HB0 : (0 <= B')%R) by apply Rmax_r.
    assert (HB' : forall st, trained (unit_tapes seeds 1 k) x z y pr pp cf (ar_eta a0) st -> aipw_enough st = true ->
      (variance (unit_tapes seeds 1 k) (F m (e_scm e) zd vd j pr pp cf st) <= B')%R).
    { intros st Ht Hen. apply Rle_trans with B; [exact (HB st Ht Hen)|apply Rmax_l]. }
    assert (He2 : (0 < eps ^ 2)%R) by now apply pow_lt.
    destruct (nat_above (B' / (eps ^ 2 * delta))) as (N0 & HN0).
    exists (2 * N0 + 2). intros n Hn. assert (Hn2 : 2 <= n) by lia.
    eapply Rle_trans; [exact (Hfar n eps Hn2 Heps)|].
    pose proof (split_mse_le w0 seeds m k Hlaw Hk cpds (e_scm e) Es Hu zd vd Hreg j Hfit x z y Hone vnone la pr pp cf w opts Hlo Hdim Hp a0 q0 n deltas Ha0 Hn2 Hds Hv Hlearn Hscore _ Htau B' HB' HB0) as Hle.
    change (N1 opts n deltas) with (N n) in Hle.
    assert (HNn : N0 <= N n /\ 1 <= N n).
    { assert (Hh : N0 + 1 <= n / 2) by (apply Nat.div_le_lower_bound; lia). unfold N. destruct deltas as [|? ?]; [congruence|]. cbn [List.length]. destruct (so_stable opts); nia. }
    destruct HNn as (HNn & HN1). apply le_INR in HNn. apply lt_0_INR in HN1.
    apply Rmult_le_reg_r with (eps ^ 2)%R; [exact He2|]. unfold Rdiv at 1. rewrite Rmult_assoc, Rinv_l, Rmult_1_r by lra.
    eapply Rle_trans; [exact Hle|]. apply Rmult_le_reg_r with (INR (N n)); [exact HN1|].
    unfold Rdiv. rewrite Rmult_assoc, Rinv_l, Rmult_1_r by lra.
    apply Rmult_lt_compat_r with (r := (eps ^ 2 * delta)%R) in HN0; [|now apply Rmult_lt_0_compat].
    unfold Rdiv in HN0. rewrite Rmult_assoc, Rinv_l, Rmult_1_r in HN0 by (apply Rgt_not_eq, Rmult_lt_0_compat; lra).
    apply Rle_trans with (INR N0 * (eps ^ 2 * delta))%R; [lra|].
    rewrite (Rmult_comm delta), (Rmult_comm (eps ^ 2 * delta)%R). apply Rmult_le_compat_r; [|exact HNn]. apply Rlt_le. now apply Rmult_lt_0_compat.
Qed.
Print Assumptions C125_error.

(** in the instance of C123 the estimate converges to 1/3 in probability, for any number of updates *)
Example C125_case : exists e g1 arm cf,
  generate_example xreal 1 [1; 1] [0; 1] (Fin 1) (Fin 1) (Fin 1) 1 cpdsU 10%Z 1 false FINITE_SAMPLE [[0]; [0]; [0]; [0]; [0]] = (Ok e, g1) /\
  nth_error (e_arms e) 1 = Some arm /\ pa_eta arm = Aipw cf /\
  forall vnone la t, 1 <= t ->
    let L n := tapes (unit_tapes law3 n 5) t in
    let after n := after_updates vnone la prU ppU cf wU optsU (pa_mask arm) armU tt (e_scm e) n (repeat (Fin (1/2)) t) in
    (forall n gs p, 2 <= n -> In (gs, p) (L n) -> reported (after n gs) = true) /\
    forall eps delta, (0 < eps)%R -> (0 < delta)%R -> exists n0, forall n, n0 <= n ->
      (prob (L n) (fun gs => if Rle_dec eps (Rabs (or_zero (as_real (ar_ate (after n gs))) - 1/3)) then true else false) <= delta)%R.
Proof.
  destruct U_case as (e & g1 & arm & cf & He & Es & Harm & Hcf & Em & Hfit & Hcov & Hft).
  exists e, g1, arm, cf. split; [exact He|]. split; [exact Harm|]. split; [exact Hcf|].
  destruct (backdoor_conf _ _ _ _ _ _ _ _ _ _ _ _ _ _ _ _ 0 _ _ He (le_n_S 0 1 (Nat.le_0_l 1)) Harm Hcf) as (_ & _ & _ & Hdim).
  intros vnone la t Ht L after.
  pose proof U_one as Hone. rewrite <- Em, <- Es in Hone. pose proof U_regular as Hreg. rewrite <- Es in Hreg.
  pose proof (fun v f (_ : paper_var 1 v) => cpdsU_unitwise v f) as Hu.
  pose proof (scmDo_sets true) as Ht1. pose proof (scmDo_sets false) as Ht0. rewrite <- Es in Ht1, Ht0.
  assert (Hv : Forall (fun d => valid_delta xreal d = true) (repeat (Fin (1/2)) t)).
  { apply Forall_forall. intros d Hd. apply repeat_spec in Hd as ->. exact half_valid. }
  assert (Hne : repeat (Fin (1/2)) t <> []) by (destruct t; [lia|discriminate]).
  assert (Hrep : forall n gs p, 2 <= n -> In (gs, p) (L n) -> reported (after n gs) = true).
  { intros n gs p Hn Hin.
    destruct (C123_unbiased nat unit unit unit 0 law3 _ _ _ _ _ _ 1 _ _ _ _ _ _ e g1 5 0 arm cf prU ppU xU zU yU (scmDo true) (scmDo false) vnone la wU optsU armU tt n
      (repeat (Fin (1/2)) t) law3_law (le_n 5) He Hu Hfit Hreg (le_n_S 0 1 (Nat.le_0_l 1)) Harm Hcf Hcov Ht1 Ht0 Hone U_positive wU_fair eq_refl Hn Hne Hv
      (U_learns cf _ Hdim)) as (Hr & _). rewrite repeat_length in Hr. destruct (Hr gs p Hin) as (Htr & Hr'). unfold after. rewrite Hr'. clear - Htr.
    assert (Hf : ap_fit (ar_eta armU) = true) by reflexivity. unfold aipw_enough. induction Htr as [|st us _ IH _]; [exact Hf|]. now apply aipw_fit_keeps. }
  split; [exact Hrep|]. intros eps delta Heps Hdelta.
  destruct (C125_error nat unit unit unit 0 law3 _ _ _ _ _ _ 1 _ _ _ _ _ _ e g1 5 0 arm cf prU ppU xU zU yU (scmDo true) (scmDo false) vnone la wU optsU armU tt
    (repeat (Fin (1/2)) t) law3_law (le_n 5) He Hu Hfit Hreg (le_n_S 0 1 (Nat.le_0_l 1)) Harm Hcf Hcov Ht1 Ht0 Hone U_positive wU_fair eq_refl Hne Hv
    (U_learns cf _ Hdim)) as (_ & _ & _ & Hc).
  destruct (Hc (variance TU (unit_score_of prU ppU cf (e_scm e) (pa_mask arm) stU))) with (eps := eps) (delta := delta) as (n0 & Hn0); trivial.
  - intros st _ Hen. apply Req_le. destruct st as [[] [] f d]. cbn in Hen. subst f. reflexivity.
  - exists (n0 + 2). intros n Hn. eapply Rle_trans; [|apply (Hn0 n); lia]. rewrite repeat_length, U_effect. apply Req_le.
    apply mean_ext_in. intros gs p Hin. pose proof (Hrep n gs p ltac:(lia) Hin) as E. unfold after in E |- *. cbv beta in E |- *. rewrite E. reflexivity.
Qed.
