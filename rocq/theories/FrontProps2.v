(** Property C128: the average front-door score of a batch of independent units, and its limit. *)
From Coq Require Import List Arith ZArith Bool String Reals Permutation Lra Lia.
From Verif Require Import PyBase Num NumOps NumLaws DataModel ScmModel ScmProofs ScmProps TabModel TabSpec TabReal BanditModel ArmModel ParamModel ParamProofs ParamProofs2 ParamProofs3 ParamProofs7 ParamProps ParamProps2 ParamProps3
  PaperModel PaperSpec PaperProofs PaperProofs2 PaperProofs3 PaperProps ScmSpec LawSpec LawProofs LawProofs2 LawProofs3 LawProofs5 LawExample ParamSpec ScoreSpec ScoreProofs ScoreProofs2 ScoreProofs3 ScoreProofs4 ScoreExample SplitExample
  FrontSpec FrontProofs FrontProofs2 FrontProofs3 FrontProofs4 FrontExample FrontProps.
Import ListNotations.
Open Scope nat_scope.
Open Scope list_scope.

(** with a right parameter the average score of any number of units has the mean of C127, its squared error is a
    variance over the number of units plus the square of the bias, and it converges to that mean, not to the effect *)
Theorem C128_average : forall (W M : Type) (w0 : W) (seeds : law W) big zd vd zc vc z0c m (cpds : sdict (cpd X (list (list W)))) limit units latex alg
    g0 e g1 k arm cf (pr : predictor X M) (cd : coding X) ridge w st x z y s1 s0,
  is_law seeds -> 2 * m + 3 <= k ->
  generate_example xreal big zd vd zc vc z0c m cpds limit units latex alg g0 = (Ok e, g1) ->
  (forall v f, paper_var m v -> entry cpds v f -> unitwise w0 f) ->
  regular (unit_tapes seeds 1 k) (e_scm e) 1 m zd vd ->
  nth_error (e_arms e) 0 = Some arm -> pa_eta arm = FrontDoor cf ->
  sets_treatment (e_scm e) s1 true -> sets_treatment (e_scm e) s0 false ->
  mediated (unit_tapes seeds 1 k) (e_scm e) x z y ->
  let pop := units_of (unit_tapes seeds 1 k) x z y in
  population pop -> (forall b v, In v (z_values pop) -> (1/4 <= p_z_given pop b v <= 3/4)%R) ->
  (forall b, kx cd (bit xreal b) = ki cd b) -> right_front pr cd (nth 0 zd 0) st pop ->
  nth 0 zd 0 = 1 \/ 2 <= nth 0 zd 0 /\ 0 < w /\ (forall r, List.length (kz cd r) = w * List.length r) /\ fd_reached xreal pr cd ridge cf st ->
  let truth := effect (unit_tapes seeds 1 k) s1 s0 in
  let target := ((if (nth 0 zd 0 =? 1)%nat then 2 * truth else truth) - f3_shift pop)%R in
  exists scores : nat -> list (list W) -> list R,
    (forall n g p, 1 <= n -> In (g, p) (unit_tapes seeds n k) ->
       front_scores pr cd cf st (e_scm e) n (pa_mask arm) g = Ok (map Fin (scores n g)) /\ List.length (scores n g) = n) /\
    (forall n, 1 <= n -> mean (unit_tapes seeds n k) (fun g => average (scores n g)) = target) /\
    (forall n, 1 <= n -> mean (unit_tapes seeds n k) (fun g => ((average (scores n g) - truth) ^ 2)%R) =
       (mean (unit_tapes seeds 1 k) (fun g => ((average (scores 1%nat g) - target) ^ 2)%R) / INR n + (target - truth) ^ 2)%R) /\
    (forall eps delta, (0 < eps)%R -> (0 < delta)%R -> exists n0, forall n, n0 <= n ->
       (prob (unit_tapes seeds n k) (fun g => if Rle_dec eps (Rabs (average (scores n g) - target)) then true else false) <= delta)%R) /\
    (target <> truth -> forall delta, (0 < delta)%R -> exists n0, forall n, n0 <= n ->
       (prob (unit_tapes seeds n k) (fun g => if Rlt_dec (Rabs (average (scores n g) - truth)) (Rabs (target - truth) / 2) then true else false) <= delta)%R).
Proof.
  intros W M w0 seeds big zd vd zc vc z0c m cpds limit units latex alg g0 e g1 k arm cf pr cd ridge w st x z y s1 s0
    Hlaw Hk He Hu Hreg Harm Hcf Hs1 Hs0 Hmed pop Hpop Hclip Hbit Hright Hcols truth target.
  destruct (front_conf _ _ _ _ _ _ _ _ _ _ _ _ _ _ _ _ _ _ He Harm Hcf) as (Es & Em & Hlo & Hdim).
  pose proof (front_core _ _ _ _ _ _ _ _ _ _ _ _ _ _ _ _ _ k (KU seeds cpds 1) arm cf x z y s1 s0 (tapes_law seeds 1 Hlaw) Hk He
    (unit_draws w0 seeds m cpds Hu 1) Harm Hcf Hs1 Hs0 Hmed Hpop) as Hcore.
  change (ate_frontdoor pop = truth) in Hcore.
  assert (HF : exists F : list (list W) -> R, mean (unit_tapes seeds 1 k) F = target /\
    forall n g p, 1 <= n -> In (g, p) (unit_tapes seeds n k) ->
      front_scores pr cd cf st (e_scm e) n (pa_mask arm) g = Ok (map Fin (map (fun u => F (of_unit w0 u g)) (seq 0 n)))).
  { destruct Hcols as [H1|(H2 & Hw & Hkz & Hreach)].
    - exists (true_score (unit_tapes seeds 1 k) x z y (true_f1 (unit_tapes seeds 1 k) x z y)). split.
      + rewrite (true_mean _ x z y Hpop). fold pop. rewrite Hcore, <- shift_f3. unfold target. now rewrite H1.
      + intros n g p Hn Hin. rewrite Em.
        exact (batch_one w0 seeds m k Hk cpds (e_scm e) Es Hu zd vd Hreg x z y Hmed Hpop pr cd cf st Hlo Hdim Hright Hclip Hbit n g p H1 Hn Hin).
    - exists (true_score (unit_tapes seeds 1 k) x z y (fun _ => 0%R)). split.
      + rewrite (true_mean_0 _ x z y Hpop). fold pop. rewrite Hcore, <- shift_f3. unfold target.
        replace (nth 0 zd 0 =? 1) with false by (symmetry; apply Nat.eqb_neq; clear - H2; lia). reflexivity.
      + intros n g p Hn Hin. rewrite Em.
        exact (batch_more w0 seeds m k Hk cpds (e_scm e) Es Hu zd vd Hreg x z y Hmed Hpop pr cd cf st Hlo Hdim Hright Hclip Hbit ridge 10 w n g p H2
          (front_ratio _ _ _ _ _ _ _ _ _ _ _ _ _ _ _ _ _ _ He Harm Hcf) Hw Hkz Hreach Hn Hin). }
  destruct HF as (F & HF & Hsc). clearbody target.
  exists (fun n g => map (fun u => F (of_unit w0 u g)) (seq 0 n)). split; [|split; [|split; [|split]]].
  - intros n g p Hn Hin. split; [exact (Hsc n g p Hn Hin)|now rewrite map_length, seq_length].
  - intros n Hn. rewrite <- HF. exact (batch_mean w0 seeds k F n Hlaw Hn).
  - intros n Hn. rewrite (limit_error w0 seeds k F target Hlaw HF n truth Hn). rewrite (limit_error w0 seeds k F target Hlaw HF 1 target (le_n 1)).
    change (INR 1) with 1%R. field. apply not_0_INR. clear - Hn. lia.
  - intros eps delta He' Hd'. exact (limit_far w0 seeds k F target Hlaw HF eps delta He' Hd').
  - intros Hne delta Hd'. exact (limit_wrong w0 seeds k F target Hlaw HF truth delta Hne Hd').
Qed.
Print Assumptions C128_average.

(** the instances of C127_effect_refuted: the effect is 1/2, and the average score is within 1/16 of it with a
    probability that tends to 0 *)
Theorem C128_effect_refuted : forall q, q <= 1 ->
  exists e g1 arm cf s1 s0 st (scores : nat -> list (list nat) -> list R),
  generate_example xreal 1 (zdF q) [0; 1] (Fin 1) (Fin 1) (Fin 1) 1 (cpdsF q) 10%Z 1 false FINITE_SAMPLE [[0]; [0]; [0]; [0]; [0]] = (Ok e, g1) /\
  nth_error (e_arms e) 0 = Some arm /\ pa_name arm = "frontdoor"%string /\ pa_eta arm = FrontDoor cf /\
  sets_treatment (e_scm e) s1 true /\ sets_treatment (e_scm e) s0 false /\ effect TO s1 s0 = (1/2)%R /\
  right_front (funpred muF) codeE (S q) st (units_of TO xF (zF q) yF) /\
  (forall n g p, 1 <= n -> In (g, p) (unit_tapes four n 5) ->
     front_scores (funpred muF) codeE cf st (e_scm e) n (pa_mask arm) g = Ok (map Fin (scores n g)) /\ List.length (scores n g) = n) /\
  (forall n, 1 <= n -> mean (unit_tapes four n 5) (fun g => average (scores n g)) = (if (q =? 0)%nat then 7/8 else 3/8)%R) /\
  (forall delta, (0 < delta)%R -> exists n0, forall n, n0 <= n ->
     (prob (unit_tapes four n 5) (fun g => if Rlt_dec (Rabs (average (scores n g) - 1/2)) (1/16) then true else false) <= delta)%R).
Proof.
  intros q Hq. destruct (F_case q) as (e & g1 & arm & He & Es & Harm & Hname & Hcf).
  pose proof (F_mediated q) as Hmed. pose proof (F_regular q) as Hreg. rewrite <- Es in Hmed, Hreg.
  pose proof (fun v f (_ : paper_var 1 v) => cpdsF_unitwise q v f) as Hu.
  assert (S1 : sets_treatment (e_scm e) (scmDoF q true) true) by (rewrite Es; apply scmDoF_sets).
  assert (S0 : sets_treatment (e_scm e) (scmDoF q false) false) by (rewrite Es; apply scmDoF_sets).
  assert (Hst : exists st, right_front (funpred muF) codeE (S q) st (units_of TO xF (zF q) yF) /\
    (S q = 1 \/ 2 <= S q /\ 0 < 1 /\ (forall r : list X, List.length (kz codeE r) = 1 * List.length r) /\ fd_reached xreal (funpred muF) codeE tt (mkFC (S q) 5 (Fin (1/4)) (Fin 10)) st)).
  { destruct q as [|[|q]]; [| |lia].
    - exists fdE. split; [exact F_right|now left].
    - destruct F_right2 as (st & Hreach & Hright). exists st. split; [exact Hright|]. right. split; [lia|]. split; [lia|]. split; [|exact Hreach].
      intro r. cbn [codeE kz]. rewrite map_length. lia. }
  destruct Hst as (st & Hright & Hcols).
  destruct (C128_average nat unit 0 four _ _ _ _ _ _ 1 _ _ _ _ _ _ e g1 5 arm _ (funpred muF) codeE tt 1 st xF (zF q) yF _ _
    four_law (le_n 5) He Hu Hreg Harm Hcf S1 S0 Hmed (F_population q) (F_clip q) codeE_bit Hright Hcols) as (scores & H1 & H2 & _ & _ & H3).
  change (unit_tapes four 1 5) with TO in H2, H3. rewrite F_effect, F_shift in H2, H3. cbn [zdF nth] in H2, H3.
  assert (Et : ((if (S q =? 1)%nat then 2 * (1 / 2) else 1 / 2) - 1 / 8 = if (q =? 0)%nat then 7/8 else 3/8)%R).
  { destruct q as [|q]; cbn [Nat.eqb]; lra. }
  rewrite Et in H2, H3.
  exists e, g1, arm. do 3 eexists. exists st, scores. split; [exact He|]. split; [exact Harm|]. split; [exact Hname|]. split; [exact Hcf|].
  split; [exact S1|]. split; [exact S0|]. split; [apply F_effect|]. split; [exact Hright|]. split; [exact H1|]. split; [exact H2|].
  intros delta Hd. destruct (H3 ltac:(destruct (q =? 0); lra) delta Hd) as (n0 & Hn0). exists n0. intros n Hn.
  eapply Rle_trans; [|exact (Hn0 n Hn)]. apply mean_le; [exact (proj1 (tapes_law _ 5 (tapes_law four n four_law)))|].
  assert (Hb : (1/16 <= Rabs ((if (q =? 0)%nat then 7/8 else 3/8) - 1/2) / 2)%R).
  { destruct (q =? 0); [rewrite Rabs_right by lra|rewrite Rabs_left by lra]; lra. }
  intro g. destruct (Rlt_dec (Rabs (average (scores n g) - 1/2)) (1/16)) as [H|H]; [|destruct (Rlt_dec _ _); lra].
  destruct (Rlt_dec _ _) as [H'|H']; [lra|]. exfalso. apply H'. lra.
Qed.
Print Assumptions C128_effect_refuted.
