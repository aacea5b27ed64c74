(** Properties C121 and C122: what the scores of an arm of the paper's experiments estimate. *)
From Coq Require Import List Arith ZArith Bool String Reals Lra Lia.
From Verif Require Import PyBase Num NumOps DataModel ScmModel ScmProofs ScmProps TabModel TabSpec BanditModel ArmModel ParamModel ParamProofs ParamProofs2
  PaperModel PaperSpec PaperProofs PaperProofs2 PaperProofs3 PaperProps ScmSpec LawSpec LawProofs LawProofs2 LawProofs3 LawProofs4 LawProofs5 LawProofs6 LawProps2
  ParamSpec ScoreSpec ScoreProofs ScoreProofs2 ScoreProofs3 ScoreProofs4 ScoreProofs5 ScoreProofs6 ScoreProofs7 LawExample ScoreExample.
From Verif Require ParamProps.
Import ListNotations.
Open Scope nat_scope.
Open Scope list_scope.

(** ** C121: the mean score is the effect of the treatment *)

(** an arm that gets all of V_i or all of Z_i for every path, with the right response function or the
    right propensity: the mean score of one unit *)
Theorem C121_unbiased : forall (W M P : Type) (seeds : law W) big zd vd zc vc z0c m (cpds : sdict (cpd X (list W))) limit units latex alg
    g0 e g1 k K j arm cf (pr : predictor X M) (pp : predictor X P) st mu pe x z y s1 s0,
  is_law seeds -> 2 * m + 3 <= k ->
  generate_example xreal big zd vd zc vc z0c m cpds limit units latex alg g0 = (Ok e, g1) ->
  (forall v f, paper_var m v -> entry cpds v f -> draws seeds 1 f (K v)) ->
  dims_fit zd vd m -> regular (tapes seeds k) (e_scm e) 1 m zd vd ->
  j < 2 ^ m -> nth_error (e_arms e) (S j) = Some arm -> pa_eta arm = Aipw cf ->
  covers zd vd m (mask_list (pa_mask arm)) ->
  sets_treatment (e_scm e) s1 true -> sets_treatment (e_scm e) s0 false ->
  one_unit (tapes seeds k) (e_scm e) (pa_mask arm) x z y -> positive (tapes seeds k) x z ->
  fitted pr pp cf st mu pe ->
  right_response (tapes seeds k) x z y mu \/ right_propensity (tapes seeds k) x z (1/4) pe ->
  exists score, (forall g p, In (g, p) (tapes seeds k) -> arm_scores pr pp cf st (e_scm e) 1 (pa_mask arm) g = Ok [Fin (score g)]) /\
    mean (tapes seeds k) score = effect (tapes seeds k) s1 s0.
Proof.
  intros W M P seeds big zd vd zc vc z0c m cpds limit units latex alg g0 e g1 k K j arm cf pr pp st mu pe x z y s1 s0
    Hlaw Hk He Hd Hfit Hreg Hj Harm Hcf Hcov Hs1 Hs0 Hone Hpos Hft Hor.
  exists (fun g => score_of (1/4) mu pe (x g) (z g) (y g)).
  exact (unbiased_core W M P seeds big zd vd zc vc z0c m cpds limit units latex alg g0 e g1 k K j arm cf pr pp st mu pe x z y s1 s0
    Hlaw Hk He Hd Hfit Hreg Hj Harm Hcf Hcov Hs1 Hs0 Hone Hpos Hft Hor).
Qed.
Print Assumptions C121_unbiased.

(** ... and the average score of a batch of any size whose units are drawn independently *)
Theorem C121_batch : forall (W M P : Type) (w0 : W) (seeds : law W) big zd vd zc vc z0c m (cpds : sdict (cpd X (list (list W)))) limit units latex alg
    g0 e g1 k j arm cf (pr : predictor X M) (pp : predictor X P) st mu pe x z y s1 s0 n,
  is_law seeds -> 2 * m + 3 <= k ->
  generate_example xreal big zd vd zc vc z0c m cpds limit units latex alg g0 = (Ok e, g1) ->
  (forall v f, paper_var m v -> entry cpds v f -> unitwise w0 f) ->
  dims_fit zd vd m -> regular (unit_tapes seeds 1 k) (e_scm e) 1 m zd vd ->
  j < 2 ^ m -> nth_error (e_arms e) (S j) = Some arm -> pa_eta arm = Aipw cf ->
  covers zd vd m (mask_list (pa_mask arm)) ->
  sets_treatment (e_scm e) s1 true -> sets_treatment (e_scm e) s0 false ->
  one_unit (unit_tapes seeds 1 k) (e_scm e) (pa_mask arm) x z y -> positive (unit_tapes seeds 1 k) x z ->
  fitted pr pp cf st mu pe ->
  right_response (unit_tapes seeds 1 k) x z y mu \/ right_propensity (unit_tapes seeds 1 k) x z (1/4) pe ->
  1 <= n ->
  exists scores, (forall g p, In (g, p) (unit_tapes seeds n k) ->
      arm_scores pr pp cf st (e_scm e) n (pa_mask arm) g = Ok (map Fin (scores g)) /\ List.length (scores g) = n) /\
    mean (unit_tapes seeds n k) (fun g => average (scores g)) = effect (unit_tapes seeds 1 k) s1 s0.
Proof.
  intros W M P w0 seeds big zd vd zc vc z0c m cpds limit units latex alg g0 e g1 k j arm cf pr pp st mu pe x z y s1 s0 n
    Hlaw Hk He Hu Hfit Hreg Hj Harm Hcf Hcov Hs1 Hs0 Hone Hpos Hft Hor Hn. pose proof Hft as (Hen & Hmu & Hpe).
  destruct (backdoor_conf _ _ _ _ _ _ _ _ _ _ _ _ _ _ _ _ _ _ _ He Hj Harm Hcf) as (Es & Em & Hlo & Hdim).
  destruct quarter as (Q1 & Q2).
  destruct (unbiased_core (list W) M P (tapes seeds 1) big zd vd zc vc z0c m cpds limit units latex alg g0 e g1 k (KU seeds cpds 1) j arm cf
    pr pp st mu pe x z y s1 s0 (tapes_law seeds 1 Hlaw) Hk He (unit_draws w0 seeds m cpds Hu 1) Hfit Hreg Hj Harm Hcf Hcov Hs1 Hs0 Hone Hpos Hft Hor)
    as (_ & Hmean).
  assert (Hone' : one_unit (unit_tapes seeds 1 k) (e_scm e) (arm_mask zd vd m j) x z y) by now rewrite <- Em.
  exists (fun g => map (fun u => unit_score (1/4) mu pe x z y (of_unit w0 u g)) (seq 0 n)). split.
  - intros g p Hin. rewrite Em. split; [|now rewrite map_length, seq_length].
    exact (batch_scores w0 seeds m k Hk cpds (e_scm e) Es Hu zd vd Hreg j Hfit pr pp cf (1/4) st mu pe Hlo Q1 Q2 Hdim Hen Hmu Hpe x z y Hone' n g p Hn Hin).
  - fold (unit_tapes seeds 1 k) in Hmean. rewrite <- Hmean.
    exact (batch_mean w0 seeds k (unit_score (1/4) mu pe x z y) n Hlaw Hn).
Qed.
Print Assumptions C121_batch.

(** one path, the arm that gets V1 but always predicts the response 7: every hypothesis holds, the effect is 1/3, and the
    average score of any number of units has mean 1/3 *)
Definition prU := ParamProps.funpred (fun _ => 7%R).
Definition ppU := ParamProps.funpred eU.
Definition stU : aipw X unit unit := mkAipw tt tt true None.
Lemma U_case : exists e g1 arm cf,
  generate_example xreal 1 [1; 1] [0; 1] (Fin 1) (Fin 1) (Fin 1) 1 cpdsU 10%Z 1 false FINITE_SAMPLE [[0]; [0]; [0]; [0]; [0]] = (Ok e, g1) /\
  e_scm e = scmU /\ nth_error (e_arms e) 1 = Some arm /\ pa_eta arm = Aipw cf /\ pa_mask arm = arm_mask [1; 1] [0; 1] 1 0 /\
  dims_fit [1; 1] [0; 1] 1 /\ covers [1; 1] [0; 1] 1 (mask_list (pa_mask arm)) /\
  fitted prU ppU cf stU (fun _ => 7%R) eU.
Proof.
  destruct (proj2 (C81_succeeds_iff X (list (list nat)) xreal 1 [1; 1] [0; 1] (Fin 1) (Fin 1) (Fin 1) 1 cpdsU 10%Z 1 false FINITE_SAMPLE [[0]; [0]; [0]; [0]; [0]]))
    as (e & g1 & He).
  { split; [exact (proj1 (paper_scm_inv _ _ _ scmU_ok))|]. cbn [List.length]. split; [lia|]. split; [lia|].
    exists scmU. do 2 eexists. split; [reflexivity|]. reflexivity. }
  assert (Harm : exists arm cf, nth_error (e_arms e) 1 = Some arm /\ pa_eta arm = Aipw cf).
  { pose proof He as He'. apply generate_example_spec in He' as (s & d0 & x & t & y & Es & Hz & Hv & _ & _ & _ & _ & ->).
    do 2 eexists. split; reflexivity. }
  destruct Harm as (arm & cf & Harm & Hcf). exists e, g1, arm, cf.
  destruct (backdoor_conf _ _ _ _ _ _ _ _ _ _ _ _ _ _ _ _ 0 _ _ He (le_n_S 0 1 (Nat.le_0_l 1)) Harm Hcf) as (Es & Em & Hlo & Hdim).
  split; [exact He|]. split; [rewrite scmU_ok in Es; congruence|]. split; [exact Harm|]. split; [exact Hcf|]. split; [exact Em|].
  split; [repeat split; try lia; assert (i = 1) as -> by lia; cbn; lia|]. split.
  - rewrite Em, arm_mask_list. intros i Hi. assert (i = 1) as -> by lia. left. intros c Hc. cbn in Hc. assert (c = 0) as -> by lia.
    exists 1. split; [now left|reflexivity].
  - split; [reflexivity|]. split; apply ParamProps.funpred_evaluates.
Qed.
Example C121_case : exists e g1 arm cf,
  generate_example xreal 1 [1; 1] [0; 1] (Fin 1) (Fin 1) (Fin 1) 1 cpdsU 10%Z 1 false FINITE_SAMPLE [[0]; [0]; [0]; [0]; [0]] = (Ok e, g1) /\
  nth_error (e_arms e) 1 = Some arm /\ pa_eta arm = Aipw cf /\
  (forall v f, paper_var 1 v -> entry cpdsU v f -> unitwise 0 f) /\ covers [1; 1] [0; 1] 1 (mask_list (pa_mask arm)) /\
  regular TU (e_scm e) 1 1 [1; 1] [0; 1] /\ one_unit TU (e_scm e) (pa_mask arm) xU zU yU /\ positive TU xU zU /\
  fitted prU ppU cf stU (fun _ => 7%R) eU /\ right_propensity TU xU zU (1/4) eU /\
  effect TU (scmDo true) (scmDo false) = (1/3)%R /\
  forall n, 1 <= n -> exists scores, (forall g p, In (g, p) (unit_tapes law3 n 5) ->
      arm_scores prU ppU cf stU (e_scm e) n (pa_mask arm) g = Ok (map Fin (scores g)) /\ List.length (scores g) = n) /\
    mean (unit_tapes law3 n 5) (fun g => average (scores g)) = (1/3)%R.
Proof.
  destruct U_case as (e & g1 & arm & cf & He & Es & Harm & Hcf & Em & Hfit & Hcov & Hft).
  exists e, g1, arm, cf. rewrite Es. pose proof U_one as Hone. rewrite <- Em in Hone.
  pose proof (fun v f (_ : paper_var 1 v) => cpdsU_unitwise v f) as Hu.
  repeat (split; [first [exact He|exact Harm|exact Hcf|exact Hu|exact Hcov|exact U_regular|exact Hone|exact U_positive|exact Hft|exact U_propensity|exact U_effect]|]).
  intros n Hn. rewrite <- U_effect, <- Es. rewrite <- Es in Hone.
  refine (C121_batch nat unit unit 0 law3 _ _ _ _ _ _ 1 _ _ _ _ _ _ e g1 5 0 arm cf prU ppU stU (fun _ => 7%R) eU xU zU yU (scmDo true) (scmDo false) n
    law3_law (le_n 5) He Hu Hfit _ (le_n_S 0 1 (Nat.le_0_l 1)) Harm Hcf Hcov _ _ Hone U_positive Hft (or_intror U_propensity) Hn);
    rewrite Es; [exact U_regular|apply scmDo_sets|apply scmDo_sets].
Qed.

(** an arm that misses a column of V_i and a column of Z_i on some path: there is a model in which the
    treatment has no effect and both of the arm's functions can be right, but the mean score is 1/2 *)
Theorem C121_open_refuted : forall big zd vd zc vc z0c m limit units latex alg j,
  dims_fit zd vd m -> j < 2 ^ m -> ~ covers zd vd m (arm_columns zd vd m j) ->
  exists (seeds : law nat) (cpds : sdict (cpd X (list nat))) K g0 e g1 arm cf,
    is_law seeds /\
    generate_example xreal big zd vd zc vc z0c m cpds limit units latex alg g0 = (Ok e, g1) /\
    (forall v f, paper_var m v -> entry cpds v f -> draws seeds 1 f (K v)) /\
    nth_error (e_arms e) (S j) = Some arm /\ mask_list (pa_mask arm) = arm_columns zd vd m j /\ pa_eta arm = Aipw cf /\
    forall k, 2 * m + 3 <= k ->
      let T := tapes seeds k in
      exists x z y, regular T (e_scm e) 1 m zd vd /\ one_unit T (e_scm e) (pa_mask arm) x z y /\ positive T x z /\
        (forall s1 s0, sets_treatment (e_scm e) s1 true -> sets_treatment (e_scm e) s0 false -> effect T s1 s0 = 0%R) /\
        right_propensity T x z (1/4) (fun _ => (1/2)%R) /\
        forall (M P : Type) (pr : predictor X M) (pp : predictor X P) st mu pe, fitted pr pp cf st mu pe ->
          right_response T x z y mu \/ right_propensity T x z (1/4) pe ->
          exists score, (forall g p, In (g, p) T -> arm_scores pr pp cf st (e_scm e) 1 (pa_mask arm) g = Ok [Fin (score g)]) /\
            mean T score = (1/2)%R.
Proof.
  intros big zd vd zc vc z0c m limit units latex alg j Hfit Hj Hb.
  destruct (not_covers zd vd m _ Hb) as (i0 & cv & cz & Hi & Hcv & Hcz & HnV & HnZ).
  set (cp := open_cpds (Fin 0) (Fin 1) xarr_eqb zd vd m i0 cv cz).
  destruct (open_scm (Fin 0) (Fin 1) xarr_eqb zd vd m i0 cv cz) as (s & Es). fold cp in Es.
  destruct (open_generates (Fin 0) (Fin 1) xarr_eqb zd vd m i0 cv cz Hi Hcv Hcz (2 * m + 3) s (le_n _) Es big) as (g0 & d & g1 & Hg).
  destruct (proj2 (C81_succeeds_iff X (list nat) xreal big zd vd zc vc z0c m cp limit units latex alg g0)) as (e & g1' & He).
  { split; [exact (proj1 (paper_scm_inv _ _ _ Es))|]. destruct Hfit as (_ & Ez & Ev & _). rewrite Ez, Ev.
    split; [lia|]. split; [lia|]. exists s, d, g1. now split. }
  assert (Harm : exists arm cf, nth_error (e_arms e) (S j) = Some arm /\ pa_eta arm = Aipw cf).
  { pose proof He as He'.
    apply generate_example_spec in He' as (s1 & d0 & x & t & y & Es1 & Hz & Hv & _ & _ & _ & _ & ->). cbn [e_arms].
    unfold paper_arms. cbn [nth_error]. rewrite nth_error_map.
    rewrite (nth_error_nth' (seq 0 (2 ^ m)) 0) by now rewrite seq_length. rewrite seq_nth by exact Hj. cbn [option_map Nat.add].
    do 2 eexists. split; reflexivity. }
  destruct Harm as (arm & cf & Harm & Hcf).
  destruct (backdoor_conf _ _ _ _ _ _ _ _ _ _ _ _ _ _ _ _ _ _ _ He Hj Harm Hcf) as (Es' & Em & Hlo & Hdim).
  assert (e_scm e = s) as Ee by congruence.
  destruct quarter as (Q1 & Q2).
  pose proof (open_draws (Fin 0) (Fin 1) xarr_eqb zd vd m i0 cv cz 1) as Hdr.
  exists four, cp, (K_of (Fin 0) (Fin 1) xarr_eqb zd vd m i0 cv cz), g0, e, g1', arm, cf.
  split; [exact four_law|]. split; [exact He|]. split; [exact Hdr|]. split; [exact Harm|].
  split; [rewrite Em; apply arm_mask_list|]. split; [exact Hcf|].
  intros k Hk. cbv zeta. rewrite Ee, Em.
  pose proof (open_regular (Fin 0) (Fin 1) xarr_eqb zd vd m i0 cv cz Hi Hcv Hcz k s Hk Es) as Hreg.
  pose proof (open_one zd vd m i0 cv cz k s Hi Hcv Hcz Hk Es j Hfit) as Hone.
  pose proof (open_positive zd vd m i0 cv cz k s Hi Hcv Hcz Hk Es j Hfit HnV HnZ) as Hpos.
  exists (open_x zd vd m i0 cv cz s), (open_z zd vd m s j), (open_y s).
  split; [exact Hreg|]. split; [exact Hone|]. split; [exact Hpos|]. split.
  { intros s1 s0 (f1 & Hf1 & Hr1) (f0 & Hf0 & Hr0). unfold effect.
    rewrite (open_do_real zd vd m i0 cv cz k s Hi Hcv Hcz Hk Es _ f1 s1 Hf1 Hr1).
    rewrite (open_do_real zd vd m i0 cv cz k s Hi Hcv Hcz Hk Es _ f0 s0 Hf0 Hr0). lra. }
  split; [exact (open_half zd vd m i0 cv cz k s Hi Hcv Hcz Hk Es j Hfit HnV HnZ)|].
  intros M P pr pp st mu pe (Hen & Hmu & Hpe) Hor.
  set (x := open_x zd vd m i0 cv cz s) in *. set (z := open_z zd vd m s j) in *. set (y := open_y s) in *.
  exists (fun g => score_of (1/4) mu pe (x g) (z g) (y g)). split.
  - intros g p Hin. destruct (Hone g p Hin) as (HX & HY & HZ).
    destruct (arm_data four 1 m k Hk cp s _ Es Hdr zd vd Hreg j Hfit g p Hin) as (d' & r & c & xx & _ & _ & Ec & _ & _ & _ & _ & _ & Tc & _).
    rewrite HZ in Ec. injection Ec as <-. cbn [atail] in Tc. injection Tc as Tc.
    apply (units_scores four 1 m k Hk cp s _ Es Hdr zd vd Hreg j Hfit pr pp cf (1/4) st mu pe Hlo Q1 Q2 Hdim Hen Hmu Hpe [g] x z y g p Hin); trivial.
    + intros u [<-|[]]. exact Tc.
    + rewrite HZ, Tc. reflexivity.
  - unfold score_of. cbv iota.
    rewrite (dr_law (tapes four k) x z y (proj1 (tapes_law four k four_law)) Hpos (fun b zz => mu (b2r b :: zz)) (fun zz => rclip (1/4) (pe zz))).
    + pose proof (open_effects zd vd m i0 cv cz k s Hi Hcv Hcz Hk Es j Hfit HnV HnZ) as HE. fold x y z in HE.
      pose proof (HE true) as E1. pose proof (HE false) as E0. rewrite adjusted_bool in E1, E0. cbv iota in E1, E0.
      rewrite E0. transitivity (3/4 - 1/4)%R; [|lra]. f_equal. exact E1.
    + intros o p _ _. pose proof (rclip_range (1/4) (pe (z o)) Q2). lra.
    + destruct Hor as [H|H]; [left; exact H|right]. intros o p Hin Hp. destruct (H o p Hin Hp) as (E & Hr). rewrite <- E. now apply rclip_id.
Qed.
Print Assumptions C121_open_refuted.

(** ** C122: the error of the average score *)

(** the mean squared error is that of one unit over the number of units; Chebyshev's inequality; and the
    average is consistent *)
Theorem C122_error : forall (W M P : Type) (w0 : W) (seeds : law W) big zd vd zc vc z0c m (cpds : sdict (cpd X (list (list W)))) limit units latex alg
    g0 e g1 k j arm cf (pr : predictor X M) (pp : predictor X P) st mu pe x z y s1 s0,
  is_law seeds -> 2 * m + 3 <= k ->
  generate_example xreal big zd vd zc vc z0c m cpds limit units latex alg g0 = (Ok e, g1) ->
  (forall v f, paper_var m v -> entry cpds v f -> unitwise w0 f) ->
  dims_fit zd vd m -> regular (unit_tapes seeds 1 k) (e_scm e) 1 m zd vd ->
  j < 2 ^ m -> nth_error (e_arms e) (S j) = Some arm -> pa_eta arm = Aipw cf ->
  covers zd vd m (mask_list (pa_mask arm)) ->
  sets_treatment (e_scm e) s1 true -> sets_treatment (e_scm e) s0 false ->
  one_unit (unit_tapes seeds 1 k) (e_scm e) (pa_mask arm) x z y -> positive (unit_tapes seeds 1 k) x z ->
  fitted pr pp cf st mu pe ->
  right_response (unit_tapes seeds 1 k) x z y mu \/ right_propensity (unit_tapes seeds 1 k) x z (1/4) pe ->
  exists scores : nat -> list (list W) -> list R,
    (forall n g p, 1 <= n -> In (g, p) (unit_tapes seeds n k) ->
       arm_scores pr pp cf st (e_scm e) n (pa_mask arm) g = Ok (map Fin (scores n g)) /\ List.length (scores n g) = n) /\
    let error n g := (average (scores n g) - effect (unit_tapes seeds 1 k) s1 s0)%R in
    let mse n := mean (unit_tapes seeds n k) (fun g => (error n g ^ 2)%R) in
    let far n eps := prob (unit_tapes seeds n k) (fun g => if Rle_dec eps (Rabs (error n g)) then true else false) in
    (forall n, 1 <= n -> mse n = (mse 1%nat / INR n)%R) /\
    (forall n eps, 1 <= n -> (0 < eps)%R -> (far n eps <= mse 1%nat / (INR n * eps ^ 2))%R) /\
    (forall eps delta, (0 < eps)%R -> (0 < delta)%R -> exists N, forall n, N <= n -> (far n eps <= delta)%R).
Proof.
  intros W M P w0 seeds big zd vd zc vc z0c m cpds limit units latex alg g0 e g1 k j arm cf pr pp st mu pe x z y s1 s0
    Hlaw Hk He Hu Hfit Hreg Hj Harm Hcf Hcov Hs1 Hs0 Hone Hpos Hft Hor. pose proof Hft as (Hen & Hmu & Hpe).
  destruct (backdoor_conf _ _ _ _ _ _ _ _ _ _ _ _ _ _ _ _ _ _ _ He Hj Harm Hcf) as (Es & Em & Hlo & Hdim).
  destruct quarter as (Q1 & Q2).
  destruct (unbiased_core (list W) M P (tapes seeds 1) big zd vd zc vc z0c m cpds limit units latex alg g0 e g1 k (KU seeds cpds 1) j arm cf
    pr pp st mu pe x z y s1 s0 (tapes_law seeds 1 Hlaw) Hk He (unit_draws w0 seeds m cpds Hu 1) Hfit Hreg Hj Harm Hcf Hcov Hs1 Hs0 Hone Hpos Hft Hor)
    as (_ & Hmean). fold (unit_tapes seeds 1 k) in Hmean.
  assert (Hone' : one_unit (unit_tapes seeds 1 k) (e_scm e) (arm_mask zd vd m j) x z y) by now rewrite <- Em.
  set (F := unit_score (1/4) mu pe x z y).
  change (mean (unit_tapes seeds 1 k) F = effect (unit_tapes seeds 1 k) s1 s0) in Hmean.
  exists (fun n g => map (fun u => F (of_unit w0 u g)) (seq 0 n)). split.
  { intros n g p Hn Hin. rewrite Em. split; [|now rewrite map_length, seq_length].
    exact (batch_scores w0 seeds m k Hk cpds (e_scm e) Es Hu zd vd Hreg j Hfit pr pp cf (1/4) st mu pe Hlo Q1 Q2 Hdim Hen Hmu Hpe x z y Hone' n g p Hn Hin). }
  cbv zeta. rewrite <- Hmean. set (c := mean (unit_tapes seeds 1 k) F).
  set (mse := fun n => mean (unit_tapes seeds n k) (fun g => ((average (map (fun u => F (of_unit w0 u g)) (seq 0 n)) - c) ^ 2)%R)).
  assert (A : forall n, 1 <= n -> mse n = (mse 1%nat / INR n)%R).
  { intros n Hn. pose proof (average_error w0 seeds Hlaw k F n Hn) as H1. pose proof (average_error w0 seeds Hlaw k F 1 (le_n 1)) as H2.
    fold c in H1, H2. unfold mse. rewrite H1, H2. change (INR 1) with 1%R. field.
    apply not_0_INR. clear - Hn. lia. }
  assert (Hmse : (0 <= mse 1%nat)%R).
  { unfold mse. rewrite <- (mean_zero (unit_tapes seeds 1 k)). apply mean_le.
    - exact (proj1 (tapes_law _ k (tapes_law seeds 1 Hlaw))).
    - intro g. apply pow2_ge_0. }
  assert (B : forall n eps, 1 <= n -> (0 < eps)%R ->
    (prob (unit_tapes seeds n k) (fun g => if Rle_dec eps (Rabs (average (map (fun u => F (of_unit w0 u g)) (seq 0 n)) - c)) then true else false) <=
     mse 1%nat / (INR n * eps ^ 2))%R).
  { intros n eps Hn He'.
    pose proof (chebyshev (unit_tapes seeds n k) (fun g => (average (map (fun u => F (of_unit w0 u g)) (seq 0 n)) - c)%R) eps
      (proj1 (tapes_law _ k (tapes_law seeds n Hlaw))) He') as H.
    eapply Rle_trans; [exact H|]. clear H. right. transitivity (mse n / eps ^ 2)%R; [reflexivity|]. rewrite (A n Hn). field.
    split; [lra|]. apply not_0_INR. clear - Hn. lia. }
  split; [exact A|]. split; [exact B|].
  intros eps delta He' Hdl. assert (H2 : (0 < eps ^ 2)%R) by now apply pow_lt.
  destruct (nat_above (mse 1%nat / (eps ^ 2 * delta))) as (N & HN).
  exists (S N). intros n Hn. assert (Hn1 : 1 <= n) by (clear - Hn; lia).
  eapply Rle_trans; [exact (B n eps Hn1 He')|].
  assert (Hin : (INR N <= INR n)%R) by (apply le_INR; clear - Hn; lia).
  assert (Hp : (0 < INR n)%R) by (apply lt_0_INR; clear - Hn1; lia).
  assert (Hpd : (0 < eps ^ 2 * delta)%R) by now apply Rmult_lt_0_compat.
  apply (Rmult_le_reg_r (INR n * eps ^ 2)); [now apply Rmult_lt_0_compat|].
  unfold Rdiv. rewrite Rmult_assoc, Rinv_l, Rmult_1_r by (apply Rgt_not_eq; now apply Rmult_lt_0_compat).
  replace (delta * (INR n * eps ^ 2))%R with (INR n * (eps ^ 2 * delta))%R by ring.
  apply Rle_trans with (mse 1%nat / (eps ^ 2 * delta) * (eps ^ 2 * delta))%R.
  - right. field. split; lra.
  - apply Rmult_le_compat_r; lra.
Qed.
Print Assumptions C122_error.

(** in the same instance the average score converges to 1/3 in probability *)
Example C122_case : exists e g1 arm cf,
  generate_example xreal 1 [1; 1] [0; 1] (Fin 1) (Fin 1) (Fin 1) 1 cpdsU 10%Z 1 false FINITE_SAMPLE [[0]; [0]; [0]; [0]; [0]] = (Ok e, g1) /\
  nth_error (e_arms e) 1 = Some arm /\ pa_eta arm = Aipw cf /\
  exists scores, (forall n g p, 1 <= n -> In (g, p) (unit_tapes law3 n 5) ->
      arm_scores prU ppU cf stU (e_scm e) n (pa_mask arm) g = Ok (map Fin (scores n g)) /\ List.length (scores n g) = n) /\
    forall eps delta, (0 < eps)%R -> (0 < delta)%R -> exists N, forall n, N <= n ->
      (prob (unit_tapes law3 n 5) (fun g => if Rle_dec eps (Rabs (average (scores n g) - 1/3)) then true else false) <= delta)%R.
Proof.
  destruct U_case as (e & g1 & arm & cf & He & Es & Harm & Hcf & Em & Hfit & Hcov & Hft).
  exists e, g1, arm, cf. split; [exact He|]. split; [exact Harm|]. split; [exact Hcf|].
  pose proof U_one as Hone. rewrite <- Em, <- Es in Hone. pose proof U_regular as Hreg. rewrite <- Es in Hreg.
  pose proof (fun v f (_ : paper_var 1 v) => cpdsU_unitwise v f) as Hu.
  pose proof (scmDo_sets true) as Ht1. pose proof (scmDo_sets false) as Ht0. rewrite <- Es in Ht1, Ht0.
  destruct (C122_error nat unit unit 0 law3 _ _ _ _ _ _ 1 _ _ _ _ _ _ e g1 5 0 arm cf prU ppU stU (fun _ => 7%R) eU xU zU yU (scmDo true) (scmDo false)
    law3_law (le_n 5) He Hu Hfit Hreg (le_n_S 0 1 (Nat.le_0_l 1)) Harm Hcf Hcov Ht1 Ht0 Hone U_positive Hft (or_intror U_propensity)) as (scores & Hsc & _ & _ & Hc).
  exists scores. split; [exact Hsc|]. rewrite U_effect in Hc. exact Hc.
Qed.
