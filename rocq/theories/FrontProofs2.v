(** The mean score of the front-door arm of the paper's experiments. *)
From Coq Require Import List Arith ZArith Bool String Reals Lra Lia Permutation.
From Verif Require Import PyBase Num NumOps DataModel ScmModel ScmProofs ScmProps TabModel TabSpec TabReal BanditModel ArmModel ParamModel ParamProofs ParamProofs2 ParamProofs3 ParamProps
  PaperModel PaperSpec PaperProofs PaperProofs2 PaperProofs3 PaperProps ScmSpec LawSpec LawProofs LawProofs2 LawProofs3 LawProofs4 LawProps
  ParamSpec ScoreSpec ScoreProofs ScoreProofs2 FrontSpec FrontProofs.
Import ListNotations.
Open Scope nat_scope.
Open Scope list_scope.

(** ** the front-door formula in terms of the unit's values *)
Section Read.
  Context {W : Type} (T : law (list W)) (s : scm X (list W)) (x : list W -> bool) (z : list W -> list R) (y : list W -> R).
  Hypothesis Hmed : mediated T s x z y.

  Lemma treated_read b g p : In (g, p) T -> same xarr_eqb (Some (vec [bit xreal b])) (drawn s 1 g "X") = Bool.eqb (x g) b.
  Proof.
    intro Hin. destruct (Hmed g p Hin) as (-> & _). apply eq_true_iff_eq.
    rewrite (same_iff xarr_eqb xarr_eqb_decides), Bool.eqb_true_iff. split; [|now intros ->].
    intro E. symmetry. apply bit_inj. unfold vec in E. cbn [map] in E. congruence.
  Qed.
  Lemma same_x_read g p g' p' : In (g, p) T -> In (g', p') T -> same xarr_eqb (drawn s 1 g "X") (drawn s 1 g' "X") = Bool.eqb (x g') (x g).
  Proof. intros Hin Hin'. destruct (Hmed g p Hin) as (-> & _). now apply treated_read with p'. Qed.
  Lemma same_z_read g p g' p' : In (g, p) T -> In (g', p') T -> same xarr_eqb (drawn s 1 g "Z0") (drawn s 1 g' "Z0") = like z g g'.
  Proof.
    intros Hin Hin'. destruct (Hmed g p Hin) as (_ & _ & ->). destruct (Hmed g' p' Hin') as (_ & _ & ->).
    apply eq_true_iff_eq. rewrite (same_iff xarr_eqb xarr_eqb_decides), (like_eq z). split; [|now intros ->].
    intro E. injection E as _ E. symmetry. now apply map_Fin_inj.
  Qed.
  Lemma front_read b : front_door T (fun g => same xarr_eqb (Some (vec [bit xreal b])) (drawn s 1 g "X"))
      (fun g g' => same xarr_eqb (drawn s 1 g "X") (drawn s 1 g' "X")) (fun g g' => same xarr_eqb (drawn s 1 g "Z0") (drawn s 1 g' "Z0"))
      (fun g => entry_real (drawn s 1 g "Y")) =
    front_door T (fun o => Bool.eqb (x o) b) (fun o o' => Bool.eqb (x o') (x o)) (like z) y.
  Proof.
    unfold front_door, mean_given at 1 3. unfold prob at 1 2. apply (f_equal2 Rdiv).
    - apply mean_ext_in. intros g p Hin. rewrite (treated_read b g p Hin). destruct (Bool.eqb (x g) b); [|reflexivity].
      apply mean_ext_in. intros g' p' Hin'. unfold mean_given, prob.
      apply (f_equal2 Rdiv); apply mean_ext_in; intros g2 p2 Hin2; rewrite (same_x_read g' p' g2 p2 Hin' Hin2), (same_z_read g p g2 p2 Hin Hin2); [|reflexivity].
      destruct (Hmed g2 p2 Hin2) as (_ & -> & _). reflexivity.
    - apply mean_ext_in. intros g p Hin. now rewrite (treated_read b g p Hin).
  Qed.
  Lemma front_overlap_read b : population (units_of T x z y) ->
    front_overlap T (fun g => same xarr_eqb (Some (vec [bit xreal b])) (drawn s 1 g "X"))
      (fun g g' => same xarr_eqb (drawn s 1 g "X") (drawn s 1 g' "X")) (fun g g' => same xarr_eqb (drawn s 1 g "Z0") (drawn s 1 g' "Z0")).
  Proof.
    intro Hpop. split.
    - pose proof (p_x_pos _ Hpop b) as P. rewrite units_x in P.
      replace (prob T (fun g => same xarr_eqb (Some (vec [bit xreal b])) (drawn s 1 g "X"))) with (prob T (fun o => Bool.eqb (x o) b)); [exact P|].
      apply mean_ext_in. intros g p Hin. now rewrite (treated_read b g p Hin).
    - intros o p o' p' Ho Hp _ Ho' Hp'. destruct Hpop as (_ & _ & Hpos). specialize (Hpos (z o) (x o') (units_z T x z y o p Ho)).
      rewrite units_xz in Hpos. eapply Rlt_le_trans; [exact Hpos|]. apply Req_le. apply mean_ext_in. intros g2 p2 Hin2.
      rewrite (same_x_read o' p' g2 p2 Ho' Hin2), (same_z_read o p g2 p2 Ho Hin2). reflexivity.
  Qed.
End Read.

Lemma front_core : forall (W : Type) (seeds : law W) big zd vd zc vc z0c m (cpds : sdict (cpd X (list W))) limit units latex alg
    g0 e g1 k K arm cf x z y s1 s0,
  is_law seeds -> 2 * m + 3 <= k ->
  generate_example xreal big zd vd zc vc z0c m cpds limit units latex alg g0 = (Ok e, g1) ->
  (forall v f, paper_var m v -> entry cpds v f -> draws seeds 1 f (K v)) ->
  nth_error (e_arms e) 0 = Some arm -> pa_eta arm = FrontDoor cf ->
  sets_treatment (e_scm e) s1 true -> sets_treatment (e_scm e) s0 false ->
  mediated (tapes seeds k) (e_scm e) x z y -> population (units_of (tapes seeds k) x z y) ->
  ate_frontdoor (units_of (tapes seeds k) x z y) = effect (tapes seeds k) s1 s0.
Proof.
  intros W seeds big zd vd zc vc z0c m cpds limit units latex alg g0 e g1 k K arm cf x z y s1 s0
    Hlaw Hk He Hd Harm Hcf (f1 & Hf1 & Hs1) (f0 & Hf0 & Hs0) Hmed Hpop.
  destruct (front_conf _ _ _ _ _ _ _ _ _ _ _ _ _ _ _ _ _ _ He Harm Hcf) as (Es & _).
  rewrite <- (front_difference (tapes seeds k) x z y Hpop). unfold effect.
  rewrite <- !(front_read _ _ x z y Hmed).
  rewrite (C119_front_door W X seeds 1 m k xarr_eqb cpds (e_scm e) K entry_real (vec [bit xreal true]) f1 s1 Hlaw xarr_eqb_decides Hk Es Hd Hf1 Hs1
    (front_overlap_read _ _ x z y Hmed true Hpop)).
  rewrite (C119_front_door W X seeds 1 m k xarr_eqb cpds (e_scm e) K entry_real (vec [bit xreal false]) f0 s0 Hlaw xarr_eqb_decides Hk Es Hd Hf0 Hs0
    (front_overlap_read _ _ x z y Hmed false Hpop)).
  reflexivity.
Qed.

(** ** the mean of the score with everything right *)
Section Mean.
  Context {A : Type} (T : law A) (x : A -> bool) (z : A -> list R) (y : A -> R).
  Notation pop := (units_of T x z y).
  Hypothesis Hpop : population pop.
  Definition true_f1 (b : bool) : R :=
    rsum (map (fun zz => (e_y pop b zz * (p_z_given pop true zz - p_z_given pop false zz))%R) (z_values pop)).
  Definition true_score (f1 : bool -> R) (o : A) : R :=
    fd_score_spec (y o) (e_y pop (x o) (z o)) (p_z_given pop true (z o)) (p_z_given pop false (z o)) (p_z_given pop (x o) (z o))
      (f1 (x o)) (p_x pop true * e_y pop true (z o) + p_x pop false * e_y pop false (z o)) (true_f3 pop (z o)) (x o) (p_x pop true).

  Lemma true_mean : mean T (true_score true_f1) = (2 * ate_frontdoor pop - (mean_f3 pop true - mean_f3 pop false))%R.
  Proof.
    pose proof (fd_mean pop (true_f3 pop) Hpop) as G. cbv zeta in G. unfold mean_f3. rewrite <- G. symmetry.
    exact (units_mean T x z y (fun zz b v => fd_score_spec v (e_y pop b zz) (p_z_given pop true zz) (p_z_given pop false zz) (p_z_given pop b zz)
      (true_f1 b) (p_x pop true * e_y pop true zz + p_x pop false * e_y pop false zz) (true_f3 pop zz) b (p_x pop true))).
  Qed.
  Lemma mean_f1 : mean T (fun o => true_f1 (x o)) = ate_frontdoor pop.
  Proof.
    transitivity (mean T (fun o => ((if Bool.eqb (x o) true then 1 else 0) * true_f1 true + (if Bool.eqb (x o) false then 1 else 0) * true_f1 false)%R)).
    - apply mean_ext. intro o. destruct (x o); cbn [Bool.eqb]; lra.
    - rewrite mean_plus, !mean_scal_r. change (prob T (fun o => Bool.eqb (x o) true) * true_f1 true + prob T (fun o => Bool.eqb (x o) false) * true_f1 false = ate_frontdoor pop)%R.
      rewrite <- !units_x with (z := z) (y := y). unfold true_f1. rewrite <- !rsum_scale, <- rsum_plus. apply rsum_ext. intros zz _. ring.
  Qed.
  Lemma true_mean_0 : mean T (true_score (fun _ => 0%R)) = (ate_frontdoor pop - (mean_f3 pop true - mean_f3 pop false))%R.
  Proof.
    enough (E : mean T (true_score true_f1) = (mean T (true_score (fun _ => 0%R)) + mean T (fun o => true_f1 (x o)))%R).
    { rewrite true_mean, mean_f1 in E. lra. }
    rewrite <- mean_plus. apply mean_ext. intro o. unfold true_score, fd_score_spec. ring.
  Qed.
End Mean.

Section Unit.
  Context {W M : Type} (seeds : law W) (m k : nat).
  Hypothesis Hk : 2 * m + 3 <= k.
  Context (cpds : sdict (cpd X (list W))) (s : scm X (list W)) (K : string -> list (arr X) -> law (arr X)).
  Hypothesis Hs : paper_scm m cpds = Ok s.
  Hypothesis Hd : forall v f, paper_var m v -> entry cpds v f -> draws seeds 1 f (K v).
  Context (zd vd : list nat).
  Hypothesis Hreg : regular (tapes seeds k) s 1 m zd vd.
  Context (x : list W -> bool) (z : list W -> list R) (y : list W -> R).
  Hypothesis Hmed : mediated (tapes seeds k) s x z y.
  Notation T := (tapes seeds k).
  Notation pop := (units_of T x z y).
  Hypothesis Hpop : population pop.
  Context (pr : predictor X M) (cd : coding X) (cf : fd_conf X) (st : fdoor X M).
  Hypothesis Hlo : fc_overlap cf = Fin (1/4).
  Hypothesis Hdim : fc_dim cf = nth 0 zd 0.
  Hypothesis Hright : right_front pr cd (nth 0 zd 0) st pop.
  Hypothesis Hclip : forall b zz, In zz (z_values pop) -> (1/4 <= p_z_given pop b zz <= 3/4)%R.
  Hypothesis Hbit : forall b, kx cd (bit xreal b) = ki cd b.

  Lemma z_lengths zz : In zz (z_values pop) -> List.length zz = nth 0 zd 0.
  Proof.
    intro H. apply nodup_In in H. unfold units_of in H. rewrite map_map in H. apply in_map_iff in H as ((g, p) & <- & Hin). cbn [fst a_z].
    destruct (front_data seeds m k Hk cpds s K Hs Hd zd vd Hreg x z y Hmed g p 1 Hin) as (_ & _ & _ & _ & E & _). exact E.
  Qed.

  (** a score with right parts *)
  Lemma parts mu px tb zs f1 g p : In (g, p) T ->
    px = p_x pop true -> (forall zz b, In zz (z_values pop) -> mu (b2r b :: zz) = e_y pop b zz) ->
    (forall b zz, In zz (z_values pop) -> tb (ki cd b) (kz cd (map Fin zz)) = p_z_given pop b zz) -> Permutation zs (z_values pop) ->
    fd_score_spec (y g) (mu (b2r (x g) :: z g)) (rclip (1/4) (tb (ki cd true) (kz cd (map Fin (z g))))) (rclip (1/4) (tb (ki cd false) (kz cd (map Fin (z g)))))
      (rclip (1/4) (tb (kx cd (bit xreal (x g))) (kz cd (map Fin (z g))))) f1 (f2_spec mu px (z g))
      (f3_spec mu px zs (fun b => rclip (1/4) (tb (ki cd b) (kz cd (map Fin (z g)))))) (x g) px =
    true_score T x z y (fun _ => f1) g.
  Proof.
    intros Hin -> Hmu Htb Hp. pose proof (units_z T x z y g p Hin) as Hz.
    assert (P01 : (p_x pop true + p_x pop false = 1)%R) by (rewrite <- total_x; apply Hpop).
    assert (Hc : forall b, rclip (1/4) (p_z_given pop b (z g)) = p_z_given pop b (z g)) by (intro b; apply rclip_id; pose proof (Hclip b (z g) Hz); lra).
    unfold true_score. rewrite Hbit, !Htb, !Hc, Hmu by assumption. f_equal.
    - unfold f2_spec. change (1 :: z g)%R with (b2r true :: z g). change (0 :: z g)%R with (b2r false :: z g). rewrite !Hmu by assumption.
      replace (1 - p_x pop true)%R with (p_x pop false) by lra. reflexivity.
    - unfold f3_spec, true_f3. replace (1 - p_x pop true)%R with (p_x pop false) by lra.
      rewrite <- (rsum_perm _ _ (Permutation_map (fun z' => (e_y pop true z' * p_x pop true * p_z_given pop true (z g)
                          + e_y pop false z' * p_x pop false * p_z_given pop false (z g))%R) Hp)).
      apply rsum_ext. intros zz Hin'. assert (Hzz : In zz (z_values pop)) by (eapply Permutation_in; eassumption).
      change (1 :: zz)%R with (b2r true :: zz). change (0 :: zz)%R with (b2r false :: zz).
      rewrite !Htb, !Hc, !Hmu by assumption. reflexivity.
  Qed.

  Lemma score_one g p : nth 0 zd 0 = 1 -> In (g, p) T ->
    front_scores pr cd cf st s 1 (MList (seq 0 (nth 0 zd 0))) g = Ok [Fin (true_score T x z y (true_f1 T x z y) g)].
  Proof.
    intros H1 Hin. destruct Hright as (Hf & (mu & Hmu & Hey) & Hpx & Hfin & Htab & (zs & Hzs & Hperm)).
    pose proof (p_x_pos pop Hpop true) as P1. pose proof (p_x_pos pop Hpop false) as P0.
    assert (P01 : (p_x pop true + p_x pop false = 1)%R) by (rewrite <- total_x; apply Hpop).
    destruct (front_data seeds m k Hk cpds s K Hs Hd zd vd Hreg x z y Hmed g p 1 Hin) as (d & r & Eg & Er & Hlen & Hof).
    unfold front_scores. rewrite Eg. cbn [bind]. rewrite Er. cbn [bind].
    set (tb := fun x z => real_of (entry_of (fd_tab st) x z)).
    assert (Ht : forall x z, entry_of (fd_tab st) x z = Fin (tb x z)). { intros a b. unfold tb. destruct (Hfin a b) as [v ->]. reflexivity. }
    assert (Htb : forall b zz, In zz (z_values pop) -> tb (ki cd b) (kz cd (map Fin zz)) = p_z_given pop b zz). { intros b zz Hz. unfold tb. now rewrite Htab. }
    assert (Hin2 : forall zz, In zz zs -> In zz (z_values pop)) by (intros zz Hz; eapply Permutation_in; eassumption).
    rewrite (C44_one_column pr cd cf (1/4) (p_x pop true) st r _ mu tb zs Hlo ltac:(lra) (eq_trans Hdim H1) ltac:(rewrite H1 in Hof; exact Hof) Hf Hpx ltac:(lra)
      ltac:(rewrite H1 in Hmu; exact Hmu) Ht Hzs).
    - cbn [map a_y a_x a_z]. cbv zeta. do 3 f_equal. rewrite (parts mu _ tb zs _ g p Hin eq_refl (fun zz b => Hey zz b) Htb Hperm).
      unfold true_score. f_equal. unfold f1_spec, true_f1.
      rewrite <- (rsum_perm _ _ (Permutation_map (fun zz => (e_y pop (x g) zz * (p_z_given pop true zz - p_z_given pop false zz))%R) Hperm)).
      apply rsum_ext. intros zz Hz. rewrite !Htb, Hey by auto. reflexivity.
    - apply Forall_forall. intros zz Hz. rewrite <- H1. now apply z_lengths, Hin2.
  Qed.

  Lemma score_more ridge ratio w g p : 2 <= nth 0 zd 0 -> fc_ratio cf = Fin ratio -> (0 < w)%nat -> (forall r, List.length (kz cd r) = w * List.length r)%nat ->
    fd_reached xreal pr cd ridge cf st -> In (g, p) T ->
    front_scores pr cd cf st s 1 (MList (seq 0 (nth 0 zd 0))) g = Ok [Fin (true_score T x z y (fun _ => 0%R) g)].
  Proof.
    intros H1 Hratio Hw Hkz Hreach Hin. destruct Hright as (Hf & (mu & Hmu & Hey) & Hpx & Hfin & Htab & (zs & Hzs & Hperm)).
    pose proof (p_x_pos pop Hpop true) as P1. pose proof (p_x_pos pop Hpop false) as P0.
    assert (P01 : (p_x pop true + p_x pop false = 1)%R) by (rewrite <- total_x; apply Hpop).
    destruct (front_data seeds m k Hk cpds s K Hs Hd zd vd Hreg x z y Hmed g p 1 Hin) as (d & r & Eg & Er & Hlen & Hof).
    unfold front_scores. rewrite Eg. cbn [bind]. rewrite Er. cbn [bind].
    set (tb := fun x z => real_of (entry_of (fd_tab st) x z)).
    assert (Htb : forall b zz, In zz (z_values pop) -> tb (ki cd b) (kz cd (map Fin zz)) = p_z_given pop b zz). { intros b zz Hz. unfold tb. now rewrite Htab. }
    assert (Hin2 : forall zz, In zz zs -> In zz (z_values pop)) by (intros zz Hz; eapply Permutation_in; eassumption).
    rewrite <- Hdim in Hof, H1, Hmu.
    rewrite (C44_two_or_more_columns pr cd ridge cf (1/4) (p_x pop true) ratio w st r _ mu zs Hlo ltac:(lra) Hratio H1 Hw Hkz Hreach Hof Hf Hpx ltac:(lra) Hmu Hzs).
    - cbn [map a_y a_x a_z]. cbv zeta. do 3 f_equal. exact (parts mu _ tb zs 0 g p Hin eq_refl (fun zz b => Hey zz b) Htb Hperm).
    - apply Forall_forall. intros zz Hz. rewrite Hdim. now apply z_lengths, Hin2.
  Qed.
End Unit.
