(** Property C127: the mean of the front-door arm's scores on generated data. *)
From Coq Require Import List Arith ZArith Bool String Reals Permutation Lra Lia.
From Verif Require Import PyBase Num NumOps NumLaws DataModel ScmModel ScmProofs ScmProps TabModel TabSpec TabReal BanditModel ArmModel ParamModel ParamProofs ParamProofs2 ParamProofs3 ParamProofs7 ParamProps ParamProps2 ParamProps3
  PaperModel PaperSpec PaperProofs PaperProofs2 PaperProofs3 PaperProps ScmSpec LawSpec LawProofs LawProofs2 LawProofs3 LawProofs5 LawExample ParamSpec ScoreSpec ScoreProofs ScoreExample SplitExample
  FrontSpec FrontProofs FrontProofs2 FrontProofs3 FrontExample.
From Verif Require ScoreProofs4.
Import ListNotations.
Open Scope nat_scope.
Open Scope list_scope.

Lemma shift_f3 pop : f3_shift pop = (mean_f3 pop true - mean_f3 pop false)%R.
Proof.
  unfold f3_shift, mean_f3. enough (E : forall f l, rsum (map (fun z => ((p_z_given pop true z - p_z_given pop false z) * f z)%R) l) =
    (rsum (map (fun z => (p_z_given pop true z * f z)%R) l) - rsum (map (fun z => (p_z_given pop false z * f z)%R) l))%R) by apply E.
  intros f l. induction l as [|a l IH]; cbn [map rsum]; [lra|]. rewrite IH. lra.
Qed.

(** one mediator column, everything estimated right: the mean score is twice the effect minus the shift of f_3 *)
Theorem C127_one_column : forall (W M : Type) (seeds : law W) big zd vd zc vc z0c m (cpds : sdict (cpd X (list W))) limit units latex alg
    g0 e g1 k K arm cf (pr : predictor X M) (cd : coding X) st x z y s1 s0,
  is_law seeds -> 2 * m + 3 <= k ->
  generate_example xreal big zd vd zc vc z0c m cpds limit units latex alg g0 = (Ok e, g1) ->
  (forall v f, paper_var m v -> entry cpds v f -> draws seeds 1 f (K v)) ->
  regular (tapes seeds k) (e_scm e) 1 m zd vd ->
  nth_error (e_arms e) 0 = Some arm -> pa_eta arm = FrontDoor cf ->
  sets_treatment (e_scm e) s1 true -> sets_treatment (e_scm e) s0 false ->
  mediated (tapes seeds k) (e_scm e) x z y ->
  let pop := units_of (tapes seeds k) x z y in
  population pop -> (forall b v, In v (z_values pop) -> (1/4 <= p_z_given pop b v <= 3/4)%R) ->
  (forall b, kx cd (bit xreal b) = ki cd b) -> right_front pr cd (nth 0 zd 0) st pop ->
  nth 0 zd 0 = 1 ->
  exists score, (forall g p, In (g, p) (tapes seeds k) -> front_scores pr cd cf st (e_scm e) 1 (pa_mask arm) g = Ok [Fin (score g)]) /\
    mean (tapes seeds k) score = (2 * effect (tapes seeds k) s1 s0 - f3_shift pop)%R.
Proof.
  intros W M seeds big zd vd zc vc z0c m cpds limit units latex alg g0 e g1 k K arm cf pr cd st x z y s1 s0
    Hlaw Hk He Hd Hreg Harm Hcf Hs1 Hs0 Hmed pop Hpop Hclip Hbit Hright H1.
  destruct (front_conf _ _ _ _ _ _ _ _ _ _ _ _ _ _ _ _ _ _ He Harm Hcf) as (Es & Em & Hlo & Hdim).
  exists (true_score (tapes seeds k) x z y (true_f1 (tapes seeds k) x z y)). split.
  - intros g p Hin. rewrite Em.
    exact (score_one seeds m k Hk cpds (e_scm e) K Es Hd zd vd Hreg x z y Hmed Hpop pr cd cf st Hlo Hdim Hright Hclip Hbit g p H1 Hin).
  - rewrite (true_mean _ x z y Hpop), shift_f3.
    now rewrite (front_core _ _ _ _ _ _ _ _ _ _ _ _ _ _ _ _ _ _ K _ _ _ _ _ _ _ Hlaw Hk He Hd Harm Hcf Hs1 Hs0 Hmed Hpop).
Qed.
Print Assumptions C127_one_column.

(** two or more columns, a parameter the code can reach: the sum f_1 is 0 (C44), and the mean score is the effect minus the shift of f_3 *)
Theorem C127_more_columns : forall (W M : Type) (seeds : law W) big zd vd zc vc z0c m (cpds : sdict (cpd X (list W))) limit units latex alg
    g0 e g1 k K arm cf (pr : predictor X M) (cd : coding X) ridge w st x z y s1 s0,
  is_law seeds -> 2 * m + 3 <= k ->
  generate_example xreal big zd vd zc vc z0c m cpds limit units latex alg g0 = (Ok e, g1) ->
  (forall v f, paper_var m v -> entry cpds v f -> draws seeds 1 f (K v)) ->
  regular (tapes seeds k) (e_scm e) 1 m zd vd ->
  nth_error (e_arms e) 0 = Some arm -> pa_eta arm = FrontDoor cf ->
  sets_treatment (e_scm e) s1 true -> sets_treatment (e_scm e) s0 false ->
  mediated (tapes seeds k) (e_scm e) x z y ->
  let pop := units_of (tapes seeds k) x z y in
  population pop -> (forall b v, In v (z_values pop) -> (1/4 <= p_z_given pop b v <= 3/4)%R) ->
  (forall b, kx cd (bit xreal b) = ki cd b) -> right_front pr cd (nth 0 zd 0) st pop ->
  2 <= nth 0 zd 0 -> 0 < w -> (forall r, List.length (kz cd r) = w * List.length r) -> fd_reached xreal pr cd ridge cf st ->
  exists score, (forall g p, In (g, p) (tapes seeds k) -> front_scores pr cd cf st (e_scm e) 1 (pa_mask arm) g = Ok [Fin (score g)]) /\
    mean (tapes seeds k) score = (effect (tapes seeds k) s1 s0 - f3_shift pop)%R.
Proof.
  intros W M seeds big zd vd zc vc z0c m cpds limit units latex alg g0 e g1 k K arm cf pr cd ridge w st x z y s1 s0
    Hlaw Hk He Hd Hreg Harm Hcf Hs1 Hs0 Hmed pop Hpop Hclip Hbit Hright H1 Hw Hkz Hreach.
  destruct (front_conf _ _ _ _ _ _ _ _ _ _ _ _ _ _ _ _ _ _ He Harm Hcf) as (Es & Em & Hlo & Hdim).
  assert (Hratio : fc_ratio cf = Fin 10).
  { clear - He Harm Hcf. apply generate_example_spec in He as (s & d0 & x & t & y & _ & _ & _ & _ & _ & _ & _ & ->). cbn [e_arms] in *.
    unfold paper_arms in Harm. cbn [nth_error] in Harm. injection Harm as <-. cbn [pa_eta frontdoor_arm] in Hcf. injection Hcf as <-. cbn [fc_ratio]. apply nint_x. }
  exists (true_score (tapes seeds k) x z y (fun _ => 0%R)). split.
  - intros g p Hin. rewrite Em.
    exact (score_more seeds m k Hk cpds (e_scm e) K Es Hd zd vd Hreg x z y Hmed Hpop pr cd cf st Hlo Hdim Hright Hclip Hbit ridge 10 w g p H1 Hratio Hw Hkz Hreach Hin).
  - rewrite (true_mean_0 _ x z y Hpop), shift_f3.
    now rewrite (front_core _ _ _ _ _ _ _ _ _ _ _ _ _ _ _ _ _ _ K _ _ _ _ _ _ _ Hlaw Hk He Hd Harm Hcf Hs1 Hs0 Hmed Hpop).
Qed.
Print Assumptions C127_more_columns.

(** the first fit on a sample gives such a parameter for the sample's own distribution *)
Theorem C127_fit : forall (M : Type) (pr : predictor X M) (cd : coding X) (ridge : M) (cf : fd_conf X) lo r d us s' mu,
  fc_overlap cf = Fin lo -> (0 < lo <= 1 / 2)%R -> fc_ratio cf = Fin r -> (1 <= r)%R ->
  of_population us (fc_dim cf) d -> population us -> Forall (fun a => a_w a = / INR (List.length us))%R us ->
  faithful cd us -> (forall b, kx cd (bit xreal b) = ki cd b) -> large_enough (fc_min cf) (map a_x us) ->
  fd_fit xreal pr cd cf (fd_new xreal ridge cf) d = (s', None) ->
  evaluates pr (fd_y s') (S (fc_dim cf)) mu -> (forall z x, In z (z_values us) -> mu (b2r x :: z) = e_y us x z) ->
  (lo <= p_x us true <= 1 - lo)%R ->
  (let m := 1 / (INR (List.length (z_values us)) * r) in
   forall b z, In z (z_values us) -> Rmax lo m <= p_z_given us b z <= 1 - Rmax lo m)%R ->
  right_front pr cd (fc_dim cf) s' us.
Proof. exact @sample_right. Qed.
Print Assumptions C127_fit.

(** the instance of FrontExample with one and with two mediator columns: the effect is 1/2 *)
Definition zdF (q : nat) := [S q; 1].
Lemma F_case q : exists e g1 arm,
  generate_example xreal 1 (zdF q) [0; 1] (Fin 1) (Fin 1) (Fin 1) 1 (cpdsF q) 10%Z 1 false FINITE_SAMPLE [[0]; [0]; [0]; [0]; [0]] = (Ok e, g1) /\
  e_scm e = scmF q /\ nth_error (e_arms e) 0 = Some arm /\ pa_name arm = "frontdoor"%string /\ pa_eta arm = FrontDoor (mkFC (S q) 5 (Fin (1/4)) (Fin 10)).
Proof.
  destruct (proj2 (C81_succeeds_iff X (list (list nat)) xreal 1 (zdF q) [0; 1] (Fin 1) (Fin 1) (Fin 1) 1 (cpdsF q) 10%Z 1 false FINITE_SAMPLE [[0]; [0]; [0]; [0]; [0]]))
    as (e & g1 & He).
  { split; [exact (proj1 (paper_scm_inv _ _ _ (scmF_ok q)))|]. cbn [List.length zdF]. split; [lia|]. split; [lia|].
    exists (scmF q). do 2 eexists. split; [reflexivity|]. reflexivity. }
  pose proof He as He'. apply generate_example_spec in He' as (s & d0 & x & t & y & Es & Hz & Hv & _ & _ & _ & _ & E).
  exists e, g1. rewrite scmF_ok in Es. injection Es as <-.
  eexists. split; [exact He|]. rewrite E. cbn [e_scm e_arms]. split; [reflexivity|]. split; [reflexivity|]. split; [reflexivity|].
  cbn [pa_eta frontdoor_arm]. do 2 f_equal. apply nint_x.
Qed.
Lemma F_clip q b v : In v (z_values (units_of TO xF (zF q) yF)) -> (1/4 <= p_z_given (units_of TO xF (zF q) yF) b v <= 3/4)%R.
Proof. intro H. destruct (F_value q v H) as (c & ->). rewrite F_given. destruct (Bool.eqb b c); lra. Qed.
Lemma F_shift q : f3_shift (units_of TO xF (zF q) yF) = (1/8)%R.
Proof. unfold f3_shift. rewrite F_sum, !F_given, !F_f3. cbn [Bool.eqb]. lra. Qed.
Lemma codeE_bit b : kx codeE (bit xreal b) = ki codeE b.
Proof. rewrite bit_x. destruct b; cbn [codeE kx ki b2r]; [now rewrite is_one_1|now rewrite is_one_0]. Qed.

Theorem C127_effect_refuted : forall q, q <= 1 ->
  exists e g1 arm cf s1 s0 st score,
  generate_example xreal 1 (zdF q) [0; 1] (Fin 1) (Fin 1) (Fin 1) 1 (cpdsF q) 10%Z 1 false FINITE_SAMPLE [[0]; [0]; [0]; [0]; [0]] = (Ok e, g1) /\
  nth_error (e_arms e) 0 = Some arm /\ pa_name arm = "frontdoor"%string /\ pa_eta arm = FrontDoor cf /\
  sets_treatment (e_scm e) s1 true /\ sets_treatment (e_scm e) s0 false /\ effect TO s1 s0 = (1/2)%R /\
  right_front (funpred muF) codeE (S q) st (units_of TO xF (zF q) yF) /\
  (forall g p, In (g, p) TO -> front_scores (funpred muF) codeE cf st (e_scm e) 1 (pa_mask arm) g = Ok [Fin (score g)]) /\
  mean TO score = (if q =? 0 then 7/8 else 3/8)%R.
Proof.
  intros q Hq. destruct (F_case q) as (e & g1 & arm & He & Es & Harm & Hname & Hcf).
  pose proof (F_mediated q) as Hmed. pose proof (F_regular q) as Hreg. rewrite <- Es in Hmed, Hreg.
  pose proof (ScoreProofs4.unit_draws 0 four 1 (cpdsF q) (fun v f (_ : paper_var 1 v) => cpdsF_unitwise q v f) 1) as Hd.
  assert (S1 : sets_treatment (e_scm e) (scmDoF q true) true) by (rewrite Es; apply scmDoF_sets).
  assert (S0 : sets_treatment (e_scm e) (scmDoF q false) false) by (rewrite Es; apply scmDoF_sets).
  destruct q as [|[|q]]; [| |lia].
  - destruct (C127_one_column (list nat) unit (tapes four 1) _ _ _ _ _ _ 1 _ _ _ _ _ _ e g1 5 _ arm _ (funpred muF) codeE fdE xF (zF 0) yF _ _
      (tapes_law four 1 four_law) (le_n 5) He Hd Hreg Harm Hcf S1 S0 Hmed (F_population 0) (F_clip 0) codeE_bit F_right eq_refl) as (score & H1 & H2).
    do 7 eexists. exists score. split; [exact He|]. split; [exact Harm|]. split; [exact Hname|]. split; [exact Hcf|]. split; [exact S1|]. split; [exact S0|].
    split; [apply F_effect|]. split; [exact F_right|]. split; [exact H1|].
    change (mean TO score = 2 * effect TO (scmDoF 0 true) (scmDoF 0 false) - f3_shift (units_of TO xF (zF 0) yF))%R in H2.
    rewrite H2, F_effect, F_shift. cbn [Nat.eqb]. lra.
  - destruct F_right2 as (st & Hreach & Hright).
    assert (Hkz : forall r : list X, List.length (kz codeE r) = 1 * List.length r) by (intro r; cbn [codeE kz]; rewrite map_length; lia).
    destruct (C127_more_columns (list nat) unit (tapes four 1) _ _ _ _ _ _ 1 _ _ _ _ _ _ e g1 5 _ arm _ (funpred muF) codeE tt 1 st xF (zF 1) yF _ _
      (tapes_law four 1 four_law) (le_n 5) He Hd Hreg Harm Hcf S1 S0 Hmed (F_population 1) (F_clip 1) codeE_bit Hright (le_n 2) (le_n 1) Hkz Hreach) as (score & H1 & H2).
    do 7 eexists. exists score. split; [exact He|]. split; [exact Harm|]. split; [exact Hname|]. split; [exact Hcf|]. split; [exact S1|]. split; [exact S0|].
    split; [apply F_effect|]. split; [exact Hright|]. split; [exact H1|].
    change (mean TO score = effect TO (scmDoF 1 true) (scmDoF 1 false) - f3_shift (units_of TO xF (zF 1) yF))%R in H2.
    rewrite H2, F_effect, F_shift. cbn [Nat.eqb]. lra.
Qed.
Print Assumptions C127_effect_refuted.

(** sixteen units with the distribution of the two-column instance, and the parameter C127_fit gives *)
Example C127_case : of_population us16 2 d16 /\ population us16 /\ (forall b, p_x us16 b = (1/2)%R) /\
  (forall b c, p_z_given us16 b (cs 1 c) = (if Bool.eqb b c then 3/4 else 1/4)%R) /\
  exists st, fd_reached xreal (funpred muF) codeE tt fc2 st /\ right_front (funpred muF) codeE 2 st (units_of TO xF (zF 1) yF).
Proof.
  split; [repeat split; repeat constructor|]. split.
  { split; [|split].
    - intros a Ha. destruct (us16_in a Ha) as (b & c & ->). cbn. lra.
    - rewrite us16_sum. cbn [a_w u16]. lra.
    - intros zz b Hz. destruct (us16_value zz Hz) as (c & ->). rewrite us16_xz. destruct (Bool.eqb b c); lra. }
  split; [exact us16_x|]. split; [exact us16_given|]. exact F_right2.
Qed.
