(** Proofs about the subclasses of AIPW: what the estimators evaluate, refitting after set_to_truth, assignments
    without effect, and ridge regression inside fit. *)
From Coq Require Import List Arith ZArith Reals Bool Lia Lra Permutation.
From Verif Require Import PyBase PyLemmas Num NumOps NumLaws DataModel ScmModel TabModel TabSpec TabReal ArmModel ArmSpec ArmProofs1 ArmProofs2 ArmProofs3
  ParamModel ParamSpec ParamSpec2 ParamProofs ParamProofs2 ParamProofs5 ParamProofs6 LinModel LinSpec LinProofs LinProofs2.
Import ListNotations.
Open Scope nat_scope.

Lemma map2_fin (c r : list R) : map2 (nmul xreal) (map Fin c) (map Fin r) = map Fin (map2 Rmult c r).
Proof. revert r. induction c as [|a c IH]; intros [|b r]; try reflexivity. cbn. f_equal. apply IH. Qed.
Lemma linear_values_x k (c : list R) b rows : length c = k ->
  linear_values xreal (mkArr [k] (map (map Fin) rows)) (map Fin c) (Fin b) = Ok (map (fun r => Fin (affine c b r)) rows).
Proof.
  intros L. unfold linear_values. cbn [atail arows]. rewrite map_length, L, Nat.eqb_refl. f_equal. rewrite map_map. apply map_ext. intros r.
  rewrite map2_fin, nsum_x. reflexivity.
Qed.
Lemma ridge_evaluates solve m k c b : rg_coef m = Some (map Fin c) -> rg_icept m = Some (Fin b) -> length c = k ->
  evaluates (ridge_ops xreal solve) m k (affine c b).
Proof. intros E1 E2 L rows _. cbn [ridge_ops pr_predict]. rewrite E1, E2. cbn [attr bind]. apply linear_values_x, L. Qed.
Lemma logit_evaluates lsolve m k c i b : lo_coef m = Some (map Fin c) -> lo_icept m = Some i -> icept_value i = Fin b -> lo_classes m = true ->
  length c = k -> evaluates (logit_ops xreal lsolve) m k (fun z => (1 / (1 + exp (- affine c b z)))%R).
Proof.
  intros E1 E2 E3 E4 L rows _. cbn [logit_ops pr_predict]. rewrite E1, E2. cbn [attr bind]. rewrite E3, (linear_values_x k) by exact L. cbn [bind]. rewrite E4.
  f_equal. rewrite map_map. apply map_ext. intros r. unfold expit. rewrite !nint_x. cbn.
  replace (0 + - affine c b r)%R with (- affine c b r)%R by lra.
  pose proof (exp_pos (- affine c b r)). destruct (Req_EM_T (1 + exp (- affine c b r)) 0); [lra|]. reflexivity.
Qed.

(** ** fitting after set_to_truth *)
Section Refit.
  Context {N M : Type} (o : numops N) (pr : predictor N M) (lsolve : option (list N * N) -> arr N -> list N -> res (list N * N)) (cf : aipw_conf N).
  Let pp := logit_ops o lsolve.
  Lemma spoiled_refit B s d rows bs y : counting o B -> tells_apart o -> (1 <= ac_min cf)%Z -> spoiled s ->
    dataset d (ac_dim cf) rows (bits o bs) y -> (Z.of_nat (length bs) + Z.abs (ac_min cf) <= B)%Z -> large_enough (ac_min cf) bs ->
    aipw_fit o pr pp cf s d =
    match pr_fit pr (ap_resp s) (with_exposure (bits o bs) (ac_dim cf) rows) y with
    | (m, Some e) => (mkAipw m (ap_prop s) (ap_fit s) (Some d), Some e)
    | (m, None) => (mkAipw m (ap_prop s) (ap_fit s) (Some d), Some TypeError)
    end.
  Proof.
    intros Hc Ha Hm (c & b & E1 & E2) Hd HB [L1 L2]. rewrite (aipw_fit_dataset o pr pp cf s d rows (bits o bs) y Hd).
    assert (El : length rows = length bs). { destruct Hd as (_ & _ & _ & _ & _ & L & _). unfold bits in L. rewrite map_length in L. now rewrite L. }
    rewrite El. rewrite (proj2 (too_few_bits o B (ac_min cf) bs Hc HB)) by (split; assumption).
    destruct (pr_fit pr _ _ _) as [m [e|]]; [reflexivity|].
    cbn [pp logit_ops pr_fit]. rewrite one_class_bits by (assumption || lia). unfold warm_start. rewrite E1, E2. reflexivity.
  Qed.
End Refit.

(** ** estimators whose coef_ and intercept_ nobody reads *)
Definition alike {N T B} (s s' : aipw N (blackbox N T) (blackbox N B)) : Prop :=
  bb_trained (ap_resp s) = bb_trained (ap_resp s') /\ bb_trained (ap_prop s) = bb_trained (ap_prop s') /\ ap_fit s = ap_fit s' /\ ap_data s = ap_data s'.
Section Boosting.
  Context {N T B : Type} (o : numops N) (la : linalg N) (cf : aipw_conf N)
    (train : arr N -> list N -> res T) (eval : T -> arr N -> res (list N)) (ptrain : arr N -> list N -> res B) (peval : B -> arr N -> res (list N)).
  Let pr := box_ops train eval.
  Let pp := box_ops ptrain peval.
  Let meth := aipw_methods o pr pp la cf.
  Lemma alike_score s s' d : alike s s' -> aipw_score o pr pp cf s d = aipw_score o pr pp cf s' d.
  Proof.
    intros (E1 & E2 & E3 & E4). unfold aipw_score. cut (aipw_transform o pr pp cf s d = aipw_transform o pr pp cf s' d); [now intros ->|].
    assert (P1 : forall a, pr_predict pr (ap_resp s) a = pr_predict pr (ap_resp s') a) by (intros a; cbn; now rewrite E1).
    assert (P2 : forall a, pr_predict pp (ap_prop s) a = pr_predict pp (ap_prop s') a) by (intros a; cbn; now rewrite E2).
    unfold aipw_transform. rewrite E3. destruct (negb (ap_fit s')); [reflexivity|]. destruct (negb _); [reflexivity|].
    destruct (arr_of (dcov d)) as [c|]; [|reflexivity]. cbn [bind]. rewrite P2. destruct (pr_predict pp (ap_prop s') c) as [p|]; [|reflexivity]. cbn [bind].
    destruct (with_cov (repeat (nint o 0) (n_units d)) d) as [a0|]; [|reflexivity]. cbn [bind]. rewrite P1. destruct (pr_predict pr (ap_resp s') a0) as [m0|]; [|reflexivity]. cbn [bind].
    destruct (with_cov (repeat (nint o 1) (n_units d)) d) as [a1|]; [|reflexivity]. cbn [bind]. rewrite P1. destruct (pr_predict pr (ap_resp s') a1) as [m1|]; [|reflexivity]. cbn [bind].
    destruct (vec_of (dexp d)) as [x|]; [|reflexivity]. cbn [bind]. destruct (with_cov x d) as [ax|]; [|reflexivity]. cbn [bind]. now rewrite P1.
  Qed.
  Lemma alike_act s s' a : alike s s' -> snd (act meth s a) = snd (act meth s' a) /\ alike (fst (act meth s a)) (fst (act meth s' a)).
  Proof.
    intros H. pose proof (alike_score s s') as Sc. destruct H as (E1 & E2 & E3 & E4).
    destruct a as [d|d|delta sub_g rho| |g|]; cbn [act meth aipw_methods m_fit m_score m_width m_enough m_truth m_reset].
    - unfold aipw_fit. cbn zeta. cbn [ap_resp ap_prop ap_fit ap_data].
      destruct (negb _); [cbn; repeat split; assumption|].
      destruct (vec_of (dexp d)) as [x|e]; [|cbn; repeat split; assumption].
      destruct (too_few _ _ _ _); [cbn; repeat split; assumption|].
      destruct (do a <- with_cov x d; _) as [[[a y] c]|]; [|cbn; repeat split; assumption].
      cbn [pr box_ops pr_fit]. destruct (train a y) as [t|]; [|cbn; repeat split; assumption].
      cbn [pp box_ops pr_fit]. destruct (ptrain c x) as [q|]; cbn; repeat split; assumption.
    - cbn. split; [f_equal; apply Sc; repeat split; assumption|repeat split; assumption].
    - cbn. split; [f_equal; unfold aipw_width; now rewrite E4|repeat split; assumption].
    - cbn. split; [f_equal; exact E3|repeat split; assumption].
    - destruct g as [g|]; [|cbn; repeat split; assumption]. unfold aipw_truth. destruct (_ =? _); cbn; repeat split; assumption.
    - cbn. repeat split; reflexivity.
  Qed.
  Lemma alike_acts l : forall s s', alike s s' -> snd (acts meth s l) = snd (acts meth s' l).
  Proof.
    induction l as [|a l IH]; intros s s' H; [reflexivity|]. destruct (alike_act s s' a H) as [H1 H2]. cbn [acts].
    destruct (act meth s a) as [s1 x]. destruct (act meth s' a) as [s1' x']. cbn [fst snd] in H1, H2. subst x'. specialize (IH s1 s1' H2).
    destruct (acts meth s1 l). destruct (acts meth s1' l). cbn [snd] in *. now rewrite IH.
  Qed.
  Lemma truth_alike s g : alike (fst (aipw_truth o pr pp cf s g)) s.
  Proof. destruct g as [g|]; [|repeat split]. unfold aipw_truth. destruct (_ =? _); repeat split. Qed.
End Boosting.

Lemma stack_columns_length {N} (o : numops N) cs eta : stack_columns o cs = Ok eta -> Forall (fun c => length c = length eta) cs.
Proof.
  destruct cs as [|c cs]; [intros _; constructor|]. unfold stack_columns. destruct (forallb _ (c :: cs)) eqn:E; [|discriminate].
  intros H. injection H as <-. rewrite map_length, seq_length. rewrite Forall_forall. rewrite forallb_forall in E. intros c' Hc. apply Nat.eqb_eq, E, Hc.
Qed.
(** the first three columns *)
Lemma stack_first3 {N} (o : numops N) a b c p p' eta eta' : stack_columns o [a; b; c; p] = Ok eta -> stack_columns o [a; b; c; p'] = Ok eta' ->
  map (firstn 3) eta = map (firstn 3) eta'.
Proof.
  unfold stack_columns. destruct (forallb _ _); [|discriminate]. destruct (forallb _ _); [|discriminate].
  intros H H'. injection H as <-. injection H' as <-. rewrite !map_map. reflexivity.
Qed.
Section Kernel.
  Context {N T P : Type} (o : numops N) (cf : aipw_conf N) (train : arr N -> list N -> res T) (eval : T -> arr N -> res (list N)) (pp : predictor N P).
  Let pr := box_ops train eval.
  Lemma kernel_truth s g d eta eta' : ap_fit s = true -> aipw_transform o pr pp cf s d = Ok eta ->
    aipw_transform o pr pp cf (fst (aipw_truth o pr pp cf s g)) d = Ok eta' -> map (firstn 3) eta' = map (firstn 3) eta.
  Proof.
    intros Hf H H'. set (s' := fst (aipw_truth o pr pp cf s g)) in *.
    assert (E : ap_fit s' = ap_fit s /\ bb_trained (ap_resp s') = bb_trained (ap_resp s)).
    { unfold s', aipw_truth. destruct g as [g|]; [|auto]. destruct (_ =? _); auto. }
    clearbody s'. destruct E as [E1 E2].
    assert (P1 : forall a, pr_predict pr (ap_resp s') a = pr_predict pr (ap_resp s) a) by (intros a; cbn; now rewrite E2).
    unfold aipw_transform in H, H'. rewrite E1, Hf in *. cbn [negb] in *. destruct (negb _); [discriminate|].
    destruct (arr_of (dcov d)) as [c|]; [|discriminate]. cbn [bind] in *.
    destruct (pr_predict pp (ap_prop s) c) as [p|]; [|discriminate]. destruct (pr_predict pp (ap_prop s') c) as [p'|]; [|discriminate]. cbn [bind] in *.
    destruct (with_cov (repeat (nint o 0) (n_units d)) d) as [a0|]; [|discriminate]. cbn [bind] in *. rewrite P1 in H'. destruct (pr_predict pr (ap_resp s) a0) as [m0|]; [|discriminate]. cbn [bind] in *.
    destruct (with_cov (repeat (nint o 1) (n_units d)) d) as [a1|]; [|discriminate]. cbn [bind] in *. rewrite P1 in H'. destruct (pr_predict pr (ap_resp s) a1) as [m1|]; [|discriminate]. cbn [bind] in *.
    destruct (vec_of (dexp d)) as [x|]; [|discriminate]. cbn [bind] in *. destruct (with_cov x d) as [ax|]; [|discriminate]. cbn [bind] in *. rewrite P1 in H'.
    destruct (pr_predict pr (ap_resp s) ax) as [mx|]; [|discriminate]. cbn [bind] in *. symmetry. eapply stack_first3; eassumption.
  Qed.
End Kernel.

(** ** ridge regression inside fit *)
Section RidgeFit.
  Context {P : Type} (solve : arr X -> list X -> res (list X)) (pp : predictor X P) (cf : aipw_conf X).
  Let pr := ridge_ops xreal solve.
  Lemma rows_of us k : with_exposure (bits xreal (map a_x us)) k (map (fun a => map Fin (a_z a)) us) =
    mkArr [S k] (map (fun p => map Fin (fst p)) (map unit_row us)).
  Proof.
    unfold with_exposure, bits. f_equal. induction us as [|a us IH]; [reflexivity|]. cbn [map map2 unit_row fst]. rewrite <- IH. f_equal.
    unfold bit. rewrite nint_x. unfold b2r. destruct (a_x a); reflexivity.
  Qed.
  Lemma ridge_fit s d us s1 : solves_ridge solve (S (ac_dim cf)) (map unit_row us) -> of_population us (ac_dim cf) d -> large_enough (ac_min cf) (map a_x us) ->
    aipw_fit xreal pr pp cf s d = (s1, None) ->
    exists t, is_ridge (S (ac_dim cf)) (map unit_row us) t /\ ap_fit s1 = true /\
      rg_coef (ap_resp s1) = Some (map Fin t) /\ rg_icept (ap_resp s1) = Some (Fin 0).
  Proof.
    intros Hs Hd HL. pose proof Hd as Hd'. unfold of_population in Hd'. rewrite (aipw_fit_dataset xreal pr pp cf s d _ _ _ Hd').
    rewrite map_length, <- (map_length a_x us).
    rewrite (proj2 (too_few_bits xreal (Z.of_nat (length (map a_x us)) + Z.abs (ac_min cf)) (ac_min cf) (map a_x us) (xreal_counting _) (Z.le_refl _)) HL).
    rewrite rows_of. destruct Hs as (t & Es & Ht).
    replace (map (fun a => Fin (a_y a)) us) with (map (fun p : list R * R => Fin (snd p)) (map unit_row us)) by (rewrite map_map; reflexivity).
    cbn [pr ridge_ops pr_fit]. rewrite Es, nint_x.
    destruct (pr_fit pp _ _ _) as [p [e|]]; [discriminate|]. intros E. injection E as <-. exists t. cbn. auto.
  Qed.
End RidgeFit.

Open Scope R_scope.
Lemma rclip_weight lo p : 0 < lo <= 1 / 2 -> 0 <= / rclip lo p <= / lo /\ 0 <= / (1 - rclip lo p) <= / lo.
Proof.
  intros [H1 H2]. assert (lo <= rclip lo p <= 1 - lo).
  { unfold rclip, Rmin, Rmax. destruct (Rle_dec lo p); destruct (Rle_dec (1 - lo) _); lra. }
  split; split.
  - left. apply Rinv_0_lt_compat. lra.
  - apply Rinv_le_contravar; lra.
  - left. apply Rinv_0_lt_compat. lra.
  - apply Rinv_le_contravar; lra.
Qed.
Lemma abs_dot u v : length u = length v -> Rabs (dot u v) <= sqrt (norm2 u) * sqrt (norm2 v).
Proof.
  intros H. rewrite <- sqrt_mult by apply norm2_nonneg. rewrite <- (sqrt_Rsqr_abs (dot u v)). apply sqrt_le_1_alt. unfold Rsqr.
  pose proof (cauchy u v H). nra.
Qed.
(** the first entry is no longer than the vector *)
Lemma abs_hd u : Rabs (hd 0 u) <= sqrt (norm2 u).
Proof.
  rewrite <- sqrt_Rsqr_abs. apply sqrt_le_1_alt. destruct u as [|x u]; [unfold norm2, dot; cbn; unfold Rsqr; lra|].
  unfold norm2, dot, Rsqr. cbn. pose proof (norm2_nonneg u) as H. unfold norm2, dot in H. lra.
Qed.
Lemma hd_comb a b u v : length u = length v -> hd 0 (comb a b u v) = a * hd 0 u + b * hd 0 v.
Proof. unfold comb. destruct u, v; try discriminate; intros _; cbn; ring. Qed.
Lemma score_bound t th row w lo D : length t = length th -> length row = length th -> Rabs w <= / lo -> 0 < lo -> norm2 (comb 1 (-1) t th) <= D ->
  Rabs (hd 0 t + w * (dot th row - dot t row) - hd 0 th) <= (1 + sqrt (norm2 row) / lo) * sqrt D.
Proof.
  intros L1 L2 Hw Hlo HD. set (u := comb 1 (-1) t th) in *. assert (Lu : length u = length row) by (unfold u; rewrite comb_length; congruence).
  replace (hd 0 t + w * (dot th row - dot t row) - hd 0 th) with (hd 0 u + w * (- dot u row)).
  2:{ unfold u. rewrite hd_comb, dot_comb by exact L1. ring. }
  assert (Hs : sqrt (norm2 u) <= sqrt D) by (apply sqrt_le_1_alt, HD).
  pose proof (abs_hd u) as H1. pose proof (abs_dot u row Lu) as H2. pose proof (sqrt_pos (norm2 row)) as H3. pose proof (sqrt_pos (norm2 u)) as H4.
  eapply Rle_trans; [apply Rabs_triang|]. rewrite Rabs_mult, Rabs_Ropp.
  assert (H5 : Rabs w * Rabs (dot u row) <= / lo * (sqrt D * sqrt (norm2 row))).
  { apply Rmult_le_compat; [apply Rabs_pos|apply Rabs_pos|exact Hw|]. eapply Rle_trans; [exact H2|]. apply Rmult_le_compat_r; assumption. }
  unfold Rdiv. lra.
Qed.
