(** The mean score of an arm of the paper's experiments. *)
From Coq Require Import List Arith ZArith Bool String Reals Lra Lia.
From Verif Require Import PyBase Num NumOps DataModel ScmModel ScmProofs ScmProps TabModel TabSpec BanditModel ArmModel ParamModel ParamProofs ParamProofs2
  PaperModel PaperSpec PaperProofs PaperProofs2 PaperProofs3 PaperProps ScmSpec LawSpec LawProofs LawProofs2 LawProofs3 LawProofs4 LawProofs5 LawProofs6 LawProps2
  ParamSpec ScoreSpec ScoreProofs ScoreProofs2 ScoreProofs3 ScoreProofs4 ScoreProofs5 ScoreProofs6.
Import ListNotations.
Open Scope nat_scope.
Open Scope list_scope.

(** the configuration of a back-door arm *)
Lemma backdoor_conf (G : Type) big zd vd zc vc z0c m (cpds : sdict (cpd X G)) limit units latex alg g0 e g1 j arm cf :
  generate_example xreal big zd vd zc vc z0c m cpds limit units latex alg g0 = (Ok e, g1) ->
  j < 2 ^ m -> nth_error (e_arms e) (S j) = Some arm -> pa_eta arm = Aipw cf ->
  paper_scm m cpds = Ok (e_scm e) /\ pa_mask arm = arm_mask zd vd m j /\ ac_overlap cf = Fin (1/4) /\ ac_dim cf = arm_dim zd vd m j.
Proof.
  intros He Hj Harm Hcf. apply generate_example_spec in He as (s & d0 & x & t & y & Es & Hz & Hv & _ & _ & _ & _ & ->). cbn [e_scm e_arms] in *.
  unfold paper_arms in Harm. cbn [nth_error] in Harm. rewrite nth_error_map in Harm.
  rewrite (nth_error_nth' (seq 0 (2 ^ m)) 0) in Harm by now rewrite seq_length.
  rewrite seq_nth in Harm by exact Hj. cbn [option_map Nat.add] in Harm. injection Harm as <-. cbn [pa_mask pa_eta backdoor_arm] in *.
  injection Hcf as <-. cbn [ac_overlap ac_dim]. rewrite arm_mask_list, arm_columns_length. repeat split; trivial. 
Qed.

Lemma quarter : (1 / 10 ^ 15 <= 1 / 4)%R /\ (1 / 4 <= 1 / 2)%R.
Proof.
  split; [|lra]. apply Rmult_le_compat_l; [lra|]. apply Rinv_le_contravar; [lra|].
  replace 4%R with (4 * 1)%R by lra. replace (10 ^ 15)%R with (10 * 10 ^ 14)%R by (cbn; lra).
  apply Rmult_le_compat; try lra; apply pow_R1_Rle; lra.
Qed.

Lemma unbiased_core : forall (W M P : Type) (seeds : law W) big zd vd zc vc z0c m (cpds : sdict (cpd X (list W))) limit units latex alg
    g0 e g1 k K j arm cf (pr : predictor X M) (pp : predictor X P) st mu pe x z y s1 s0,
  is_law seeds -> 2 * m + 3 <= k ->
  generate_example xreal big zd vd zc vc z0c m cpds limit units latex alg g0 = (Ok e, g1) ->
  (forall v f, paper_var m v -> entry cpds v f -> draws seeds 1 f (K v)) ->
  dims_fit zd vd m -> regular (tapes seeds k) (e_scm e) 1 m zd vd ->
  j < 2 ^ m -> nth_error (e_arms e) (S j) = Some arm -> pa_eta arm = Aipw cf ->
  covers zd vd m (mask_list (pa_mask arm)) ->
  sets_treatment (e_scm e) s1 true -> sets_treatment (e_scm e) s0 false ->
  one_unit (tapes seeds k) (e_scm e) (pa_mask arm) x z y -> positive (tapes seeds k) x z ->
  fitted pr pp cf st mu pe ->
  right_response (tapes seeds k) x z y mu \/ right_propensity (tapes seeds k) x z (1/4) pe ->
  let score := (fun g => score_of (1/4) mu pe (x g) (z g) (y g)) in
  (forall g p, In (g, p) (tapes seeds k) -> arm_scores pr pp cf st (e_scm e) 1 (pa_mask arm) g = Ok [Fin (score g)]) /\
    mean (tapes seeds k) score = effect (tapes seeds k) s1 s0.
Proof.
  intros W M P seeds big zd vd zc vc z0c m cpds limit units latex alg g0 e g1 k K j arm cf pr pp st mu pe x z y s1 s0
    Hlaw Hk He Hd Hfit Hreg Hj Harm Hcf Hcov (f1 & Hf1 & Hs1) (f0 & Hf0 & Hs0) Hone Hpos (Hen & Hmu & Hpe) Hor.
  destruct (backdoor_conf _ _ _ _ _ _ _ _ _ _ _ _ _ _ _ _ _ _ _ He Hj Harm Hcf) as (Es & Em & Hlo & Hdim).
  destruct quarter as (Q1 & Q2).
  cbv zeta. split.
  - intros g p Hin. destruct (Hone g p Hin) as (HX & HY & HZ). rewrite Em in HZ |- *.
    destruct (arm_data seeds 1 m k Hk cpds (e_scm e) K Es Hd zd vd Hreg j Hfit g p Hin) as (d & r & c & xx & _ & _ & Ec & _ & _ & _ & _ & _ & Tc & _).
    rewrite HZ in Ec. injection Ec as <-. cbn [atail] in Tc. injection Tc as Tc.
    apply (units_scores seeds 1 m k Hk cpds (e_scm e) K Es Hd zd vd Hreg j Hfit pr pp cf (1/4) st mu pe Hlo Q1 Q2 Hdim Hen Hmu Hpe [g] x z y g p Hin); trivial.
    + intros u [<-|[]]. exact Tc.
    + rewrite HZ, Tc. reflexivity.
  - assert (Ha : forall b f s', (forall args g, f 1 args g = (Ok (vec [bit xreal b]), g)) -> replaces (e_scm e) "X" f s' ->
      mean (tapes seeds k) (fun g => entry_real (drawn s' 1 g "Y")) = adjusted (tapes seeds k) (fun g => if b then x g else negb (x g)) (like z) y).
    { intros b f s' Hf Hr.
      rewrite <- (C120_arm_identifies X W xreal seeds big zd vd zc vc z0c m cpds limit units latex alg g0 e g1 1 k xarr_eqb K entry_real
        (vec [bit xreal b]) f s' j arm Hlaw xarr_eqb_decides Hk He Hd Hf Hr Hfit Hreg Hj Harm Hcov).
      - rewrite (adjusted_read _ _ _ x z y Hone), <- (adjusted_bool (tapes seeds k) x z y b).
        unfold adjusted. apply mean_ext. intro g. unfold mean_given, prob.
        apply (f_equal2 Rdiv); [|reflexivity]. apply mean_ext_in. intros g' p' Hin'. now rewrite (response_read _ _ _ x z y Hone g' p' Hin').
      - apply (proj2 (overlap_read _ _ _ x z y Hone b)). intros o p Hin Hp. exact (Hpos o p b Hin Hp). }
    unfold effect. rewrite (Ha true f1 s1 Hf1 Hs1), (Ha false f0 s0 Hf0 Hs0).
    unfold score_of. cbv iota.
    apply (dr_law (tapes seeds k) x z y (proj1 (tapes_law seeds k Hlaw)) Hpos (fun b zz => mu (b2r b :: zz)) (fun zz => rclip (1/4) (pe zz))).
    + intros o p _ _. pose proof (rclip_range (1/4) (pe (z o)) Q2). lra.
    + destruct Hor as [H|H]; [left; exact H|right]. intros o p Hin Hp. destruct (H o p Hin Hp) as (E & Hr). rewrite <- E. now apply rclip_id.
Qed.
